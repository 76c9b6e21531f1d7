(** RIB updates keep the FIB as wanted. *)
From stdpp Require Import gmap.
From Verif Require Import Lib Name_Model Name_Proof Tab_Model Rib_Model Rib_Spec RibFib_Model RibFib_Spec Rib_Tree Rib_Hier Rib_Inv RibFib_Look RibFib_Anc RibFib_Trav.

Notation rho := (name -> list route) (only parsing).
Definition want (p : rho) (n : name) (f : N) : option N :=
  match own p n f with
  | Some r => Some (r_cost r)
  | None => match p n with [] => None | _ => if captures (p n) then None else option_map r_cost (anc p n f) end
  end.
(** the routes with those of one prefix changed *)
Definition upd_rho (n : name) (l : list route) (p : rho) : rho := fun d => if name_eqb d n then l else p d.
Lemma upd_rho_eq n l p : upd_rho n l p n = l.
Proof. unfold upd_rho. by rewrite name_eqb_refl. Qed.
Lemma upd_rho_ne n l p d : d <> n -> upd_rho n l p d = p d.
Proof. intros H. unfold upd_rho. destruct (name_eqb d n) eqn:E; [|done]. by apply name_eqb_eq in E. Qed.
Lemma proper_ne a b : proper_prefix a b -> b <> a.
Proof. intros [_ H] ->. done. Qed.
Lemma want_ext p p' n f : (forall q, q `prefix_of` n -> p q = p' q) -> want p n f = want p' n f.
Proof.
  intros H. unfold want, own. rewrite (H n) by done. rewrite (anc_ext p p' n f); [done|]. intros q [Hq _]. by apply H.
Qed.
Lemma anc_upd_same n l p f : anc (upd_rho n l p) n f = anc p n f.
Proof. apply anc_ext. intros q Hq. apply upd_rho_ne. intros ->. by apply proper_irrefl in Hq. Qed.
Lemma own_upd n l p f : own (upd_rho n l p) n f = List.find (fun r => r_face r =? f)%N l.
Proof. unfold own. by rewrite upd_rho_eq. Qed.
Lemma own_upd_ne n l p d f : d <> n -> own (upd_rho n l p) d f = own p d f.
Proof. intros H. unfold own. by rewrite upd_rho_ne. Qed.
Lemma ci_upd n l p f : ci (upd_rho n l p) n f = List.find (on_ci f) l.
Proof. unfold ci. by rewrite upd_rho_eq. Qed.
Lemma ci_own p n f : own p n f = None -> ci p n f = None.
Proof.
  intros H. unfold ci, own in *. destruct (List.find (on_ci f) (p n)) as [r|] eqn:E; [|done].
  apply find_some_in in E as [Hr E]. eapply find_none_in in Hr; [|exact H]. unfold on_ci in E. simpl in Hr. by rewrite Hr in E.
Qed.
Lemma rho_nil (m : rmap) d : (forall n e, m !! n = Some e -> re_routes e <> []) -> rho_of m d = [] <-> m !! d = None.
Proof.
  intros H. unfold rho_of. destruct (m !! d) as [e|] eqn:E; [|done]. split; [|done]. intros K. by destruct (H d e E).
Qed.

(** what is inherited at [n] through its own routes or its ancestors' *)
Definition orelse {A} (x y : option A) : option A := match x with Some _ => x | None => y end.
(** what is passed below a prefix with the routes [l] that itself inherits [x] *)
Definition passes (l : list route) (f : N) (x : option route) : option route := orelse (List.find (on_ci f) l) (if captures l then None else x).
Lemma pass_passes p n f : pass p n f = passes (p n) f (anc p n f).
Proof. unfold pass, passes, ci. by destruct (List.find (on_ci f) (p n)). Qed.
Lemma anc_upd_other (m : rmap) n l d f :
  d <> n -> under m n d f = false -> is_Some (m !! d) -> blk (rho_of m) d f = false -> anc (upd_rho n l (rho_of m)) d f = anc (rho_of m) d f.
Proof.
  intros Hd Hu Hr Hc. destruct (decide (proper_prefix n d)) as [Hp|Hp].
  - destruct (decide (Exists (fun q => proper_prefix n q /\ blk (rho_of m) q f = true) (proper_prefixes d))) as [He|He].
    + apply Exists_exists in He as (q & Hq%in_proper_prefixes & Hnq & Hci). symmetry. eapply (anc_blocked _ _ n d q); [done|done|done|].
      intros x Hx. symmetry. by apply upd_rho_ne, proper_ne.
    + exfalso. apply not_true_iff_false in Hu. apply Hu, under_spec. split; [done|]. split; [done|]. intros q Hnq Hqd.
      destruct (blk (rho_of m) q f) eqn:Eq; [|done]. destruct (decide (q = d)) as [->|Hne]; [congruence|]. destruct He. apply Exists_exists. exists q.
      split; [by apply in_proper_prefixes|]. done.
  - apply anc_ext. intros q Hq. apply upd_rho_ne. by intros ->.
Qed.
Lemma anc_upd_under (m : rmap) n l d f :
  under m n d f = true -> anc (upd_rho n l (rho_of m)) d f = passes l f (anc (rho_of m) n f).
Proof.
  intros (H1 & H2 & H3)%under_spec. rewrite (anc_unblocked _ n d f H2), pass_passes, anc_upd_same, upd_rho_eq; [done|].
  intros q Hq1 [Hq2 _]. rewrite (blk_ext _ (rho_of m)) by (by apply upd_rho_ne, proper_ne). by apply H3.
Qed.
Lemma anc_under (m : rmap) n d f : under m n d f = true -> anc (rho_of m) d f = passes (rho_of m n) f (anc (rho_of m) n f).
Proof.
  intros (H1 & H2 & H3)%under_spec. rewrite (anc_unblocked _ n d f H2); [apply pass_passes|].
  intros q Hq1 [Hq2 _]. by apply H3.
Qed.

(** ** The invariant *)
Definition ncap (l : list route) : N := N.of_nat (length (List.filter rib_capture l)).
Lemma ncap_captures l : (0 <? ncap l)%N = captures l.
Proof. unfold ncap, captures. induction l as [|x l IH]; simpl; [done|]. destruct (rib_capture x); simpl; [|done]. apply N.ltb_lt. lia. Qed.
Record tame_map (m : rmap) : Prop := {
  tm_hier : hier m;
  tm_some : forall n e, m !! n = Some e -> re_routes e <> [];
  tm_ncap : forall n e, m !! n = Some e -> re_ncap e = ncap (re_routes e);
  tm_bound : forall n, (ncap (rho_of m n) < U64)%N;
  tm_flags : forall n r, r ∈ rho_of m n -> (r_flags r < 4)%N;
  tm_faces : forall n, NoDup (map r_face (rho_of m n));
  tm_key : forall n, NoDup (map key (rho_of m n));
  tm_inh : forall d f, is_Some (m !! d) -> own (rho_of m) d f = None -> captures (rho_of m d) = false -> anc (rho_of m) d f <> None -> inhb m d f = true;
  tm_own : forall d f r, own (rho_of m) d f = Some r -> child_inherit r = false -> inhb m d f = false;
}.
Lemma tame_count m : tame_map m -> count_ok m.
Proof. intros H n e He. unfold has_capture. by rewrite (tm_ncap m H n e He), ncap_captures. Qed.

(** routes the children get and lose are right for the new routes [l] of [n] *)
Definition fit (m : rmap) (n : name) (l : list route) (add rem : list route) : Prop :=
  forall f, let old := passes (rho_of m n) f (anc (rho_of m) n f) in
            let new := passes l f (anc (rho_of m) n f) in
            match rs_get f add with
            | Some r => option_map r_cost new = Some (r_cost r)
            | None => match rs_get f rem with
                      | Some _ => new = None
                      | None => option_map r_cost new = option_map r_cost old
                      end
            end.
Definition childE (m : rmap) (n : name) (add rem : list route) (En : N -> option (option N)) (d : name) (f : N) : option (option N) :=
  if name_eqb d n then En f else if under m n d f then tr m add rem d f else None.
Definition childI (m : rmap) (n : name) (add rem : list route) (In : N -> option bool) (d : name) (f : N) : option bool :=
  if name_eqb d n then In f else if under m n d f then is_added (tr m add rem d f) else None.
Definition get_or {A} (x : option A) (y : A) : A := match x with Some z => z | None => y end.

Section step.
Variables (m : rmap) (n : name) (l add rem : list route).
Hypothesis Hm : tame_map m.
Hypothesis Hfit : fit m n l add rem.
Local Notation p := (rho_of m).
Local Notation p' := (upd_rho n l (rho_of m)).

Lemma under_ne d f : under m n d f = true -> d <> n.
Proof. intros (_ & H & _)%under_spec. by apply proper_ne. Qed.
Lemma under_own d f : under m n d f = true -> own p d f <> None -> inhb m d f = false.
Proof.
  intros Hu Ho. apply under_spec in Hu as (_ & H2 & H3). destruct (own p d f) as [r|] eqn:E; [|done]. eapply (tm_own m Hm); [exact E|].
  assert (Hc : ci p d f = None) by (by apply (proj1 (blk_false _ _ _)), H3). apply find_some_in in E as [Hr E]. eapply find_none_in in Hr; [|exact Hc]. unfold on_ci in Hr. simpl in E. by rewrite E in Hr.
Qed.
Lemma option_map_none {A B} (g : A -> B) x : option_map g x = None <-> x = None.
Proof. by destruct x. Qed.
Lemma children_look d f : d <> n -> get_or (if under m n d f then tr m add rem d f else None) (want p d f) = want p' d f.
Proof.
  intros Hd. destruct (under m n d f) eqn:Eu.
  - unfold tr. unfold want. rewrite own_upd_ne by done. unfold own_on. destruct (own p d f) as [r|] eqn:Eo; simpl.
    + rewrite (under_own d f Eu) by congruence. done.
    + apply under_spec in Eu as K. destruct K as ([e He] & Hnd & K). specialize (K d Hnd ltac:(done)). apply blk_false in K as [_ Hcap]. rewrite upd_rho_ne by done.
      destruct (p d) as [|x k] eqn:Ep. { by apply (rho_nil m d (tm_some m Hm)) in Ep as E0; rewrite He in E0. }
      rewrite <-Ep. rewrite Ep, Hcap.
      rewrite (anc_upd_under m n l d f Eu). specialize (Hfit f). simpl in Hfit. destruct (rs_get f add) as [a|]; simpl.
      * by rewrite Hfit.
      * rewrite (anc_under m n d f Eu). destruct (inhb m d f) eqn:Ei; simpl.
        -- destruct (rs_get f rem); simpl; [by rewrite Hfit|done].
        -- assert (Hno : anc p d f = None).
           { destruct (anc p d f) eqn:Ea; [|done]. exfalso. assert (inhb m d f = true); [|congruence]. apply (tm_inh m Hm); [by eexists|done|by rewrite Ep|congruence]. }
           rewrite (anc_under m n d f Eu) in Hno. destruct (rs_get f rem); [by rewrite Hfit, Hno|done].
  - simpl. unfold want. rewrite own_upd_ne by done. destruct (own p d f) as [r|] eqn:Eo; [done|].
    rewrite upd_rho_ne by done. destruct (p d) as [|x k] eqn:Ep; [done|]. destruct (captures (x :: k)) eqn:Ec; [done|]. rewrite anc_upd_other; try done; [|apply blk_false; split; [by apply ci_own|by rewrite Ep]].
    unfold rho_of in Ep. destruct (m !! d); [by eexists|done].
Qed.
Definition inhb' (d : name) (f : N) : bool := get_or (if under m n d f then is_added (tr m add rem d f) else None) (inhb m d f).
Lemma children_inh d f : d <> n -> is_Some (m !! d) -> own p' d f = None -> captures (p' d) = false -> anc p' d f <> None -> inhb' d f = true.
Proof.
  intros Hd Hs Ho Hcap Ha. rewrite own_upd_ne in Ho by done. rewrite upd_rho_ne in Hcap by done. unfold inhb'. destruct (under m n d f) eqn:Eu.
  - rewrite (anc_upd_under m n l d f Eu) in Ha. unfold tr, own_on. rewrite Ho. simpl. specialize (Hfit f). simpl in Hfit.
    destruct (rs_get f add) as [a|]; simpl; [done|]. destruct (rs_get f rem) as [x|]; simpl.
    + by rewrite Hfit in Ha.
    + assert (inhb m d f = true) as ->; [|done]. apply (tm_inh m Hm); [done|done|done|]. rewrite (anc_under m n d f Eu).
      intros K. rewrite K in Hfit. simpl in Hfit. by apply option_map_none in Hfit.
  - simpl. apply (tm_inh m Hm); [done|done|done|]. rewrite anc_upd_other in Ha; try done. apply blk_false. split; [by apply ci_own|done].
Qed.
Lemma children_own d f r : d <> n -> own p' d f = Some r -> child_inherit r = false -> inhb' d f = false.
Proof.
  intros Hd Ho Hc. rewrite own_upd_ne in Ho by done. unfold inhb'. pose proof (tm_own m Hm d f r Ho Hc) as K. destruct (under m n d f) eqn:Eu; [|done].
  unfold tr, own_on. rewrite Ho. simpl. by rewrite K.
Qed.
End step.
