(** Each RIB update keeps the invariant. *)
From stdpp Require Import gmap.
From Verif Require Import Lib Name_Model Name_Proof Tab_Model Rib_Model Rib_Spec RibFib_Model RibFib_Spec Rib_Tree Rib_Hier Rib_Inv RibFib_Look RibFib_Anc RibFib_Trav RibFib_Inv.

Lemma flags_eqb r x : (r_flags r < 4)%N -> (r_flags x < 4)%N -> rib_capture x = rib_capture r -> (r_flags r =? r_flags x)%N = eqb (child_inherit r) (child_inherit x).
Proof.
  intros H K. unfold child_inherit, rib_capture. assert (r_flags r = 0 \/ r_flags r = 1 \/ r_flags r = 2 \/ r_flags r = 3)%N as [->|[->|[->| ->]]] by lia;
    assert (r_flags x = 0 \/ r_flags x = 1 \/ r_flags x = 2 \/ r_flags x = 3)%N as [->|[->|[->| ->]]] by lia; by intros ?.
Qed.
Lemma captures_app l k : captures (l ++ k) = captures l || captures k.
Proof. apply existsb_app. Qed.
Lemma captures_mid l1 x l2 : captures (l1 ++ x :: l2) = rib_capture x || captures (l1 ++ l2).
Proof. rewrite !captures_app. unfold captures at 2. simpl. fold (captures l2). by destruct (captures l1), (rib_capture x). Qed.

(** ** Lists with one route per face *)
Definition on_face (f : N) (P : route -> bool) : Prop := forall y, P y = true -> r_face y = f.
Lemma on_face_own f : on_face f (fun r => r_face r =? f)%N.
Proof. intros y H. by apply N.eqb_eq. Qed.
Lemma on_face_ci f : on_face f (on_ci f).
Proof. intros y [H _]%andb_true_iff. by apply N.eqb_eq. Qed.
Lemma find_none_face f P l : on_face f P -> f ∉ map r_face l -> List.find P l = None.
Proof.
  intros HP H. apply find_none_all, Forall_forall. intros y Hy. destruct (P y) eqn:E; [|done]. destruct H. apply elem_of_list_fmap. exists y. split; [|done]. symmetry. by apply HP.
Qed.
Lemma nodup_mid (l1 l2 : list route) x : NoDup (map r_face (l1 ++ x :: l2)) -> r_face x ∉ map r_face l1 /\ r_face x ∉ map r_face l2 /\ NoDup (map r_face (l1 ++ l2)).
Proof.
  rewrite !map_app. simpl. rewrite !NoDup_app, NoDup_cons. intros (H1 & H2 & H3 & H4). split; [intros K; eapply H2; [exact K|left]|]. split; [done|].
  split; [done|]. split; [|done]. intros y Hy1 Hy2. eapply H2; [exact Hy1|by right].
Qed.
Lemma find_mid f P l1 x l2 : on_face f P -> NoDup (map r_face (l1 ++ x :: l2)) ->
  List.find P (l1 ++ x :: l2) = if (r_face x =? f)%N then (if P x then Some x else None) else List.find P (l1 ++ l2).
Proof.
  intros HP (H1 & H2 & _)%nodup_mid. rewrite !find_app. simpl. destruct (N.eqb_spec (r_face x) f) as [E|E].
  - rewrite (find_none_face f P l1), (find_none_face f P l2); [done|done|congruence|done|congruence].
  - destruct (P x) eqn:Ep; [by apply HP in Ep|done].
Qed.
Lemma find_mid_drop f P l1 x l2 : on_face f P -> NoDup (map r_face (l1 ++ x :: l2)) ->
  List.find P (l1 ++ l2) = if (r_face x =? f)%N then None else List.find P (l1 ++ x :: l2).
Proof.
  intros HP Hnd. rewrite (find_mid f P l1 x l2 HP Hnd). destruct (N.eqb_spec (r_face x) f) as [E|E]; [|done].
  apply nodup_mid in Hnd as (H1 & H2 & _). rewrite find_app, (find_none_face f P l1), (find_none_face f P l2); [done|done|congruence|done|congruence].
Qed.
Lemma lowest_none P l c : (forall y, y ∈ l -> P y = false) -> fold_left (fun c r => if P r then match c with None => Some r | Some x => if (r_cost r <? r_cost x)%N then Some r else c end else c) l c = c.
Proof. revert c. induction l as [|x l IH]; intros c H; simpl; [done|]. rewrite (H x) by left. apply IH. intros; apply H; by right. Qed.
Lemma lowest_find f P l : on_face f P -> NoDup (map r_face l) -> lowest P l = List.find P l.
Proof.
  intros HP. unfold lowest. induction l as [|x l IH]; intros Hnd; simpl; [done|]. rewrite map_cons in Hnd. apply NoDup_cons in Hnd as [Hx Hnd].
  destruct (P x) eqn:Ep; [|by apply IH]. apply lowest_none. intros y Hy. destruct (P y) eqn:Ey; [|done]. destruct Hx. apply elem_of_list_fmap. exists y. split; [|done].
  rewrite (HP x Ep). symmetry. by apply HP.
Qed.
Lemma second_none f e : NoDup (map r_face (re_routes e)) -> second_on f e = None.
Proof.
  intros H. unfold second_on. assert (List.filter (fun r => r_face r =? f)%N (re_routes e) = [] \/ exists x, List.filter (fun r => r_face r =? f)%N (re_routes e) = [x]) as [->|[x ->]]; [|done|done].
  induction (re_routes e) as [|x l IH]; simpl; [by left|]. rewrite map_cons in H. apply NoDup_cons in H as [Hx Hnd]. destruct (N.eqb_spec (r_face x) f) as [E|E]; [|by apply IH].
  right. exists x. f_equal. apply elem_of_nil_inv. intros y Hy%elem_of_list_In. apply filter_In in Hy as [Hy Ey]. apply N.eqb_eq in Ey. destruct Hx.
  apply elem_of_list_fmap. exists y. split; [congruence|]. by apply elem_of_list_In.
Qed.

(** ** The RIB after an update *)
Lemma assemble (m m1 m' : rmap) n l add rem In c :
  tame_map m -> fit m n l add rem -> hier m1 ->
  (forall x, x <> n -> strip <$> m1 !! x = strip <$> m !! x) ->
  match l with [] => m1 !! n = None | _ => exists e', m1 !! n = Some e' /\ re_routes e' = l /\ re_ncap e' = ncap l /\ forall f, has_inh f e' = inhb m n f end ->
  (ncap l < U64)%N -> Forall (fun r => (r_flags r < 4)%N) l -> NoDup (map r_face l) -> NoDup (map key l) ->
  modify_inherited (u_inh c) m1 = Some m' ->
  (forall d f, ilook c d f = childI m n add rem In d f) ->
  (l <> [] -> captures l = false -> forall f, List.find (fun r => r_face r =? f)%N l = None -> anc (rho_of m) n f <> None -> get_or (In f) (inhb m n f) = true) ->
  (forall f r, List.find (fun r => r_face r =? f)%N l = Some r -> child_inherit r = false -> get_or (In f) (inhb m n f) = false) ->
  tame_map m' /\ forall d, rho_of m' d = upd_rho n l (rho_of m) d.
Proof.
  intros Hm Hfit Hh Hx Hn Hbd Hfl Hfa Hke Hmi Hi N2 N3.
  pose proof (modify_inherited_frame _ _ _ Hmi) as Hfr.
  assert (Hr1 : forall d, rho_of m1 d = upd_rho n l (rho_of m) d).
  { intros d. destruct (decide (d = n)) as [->|Hd].
    - rewrite upd_rho_eq. unfold rho_of. destruct l as [|x k]; [by rewrite Hn|]. destruct Hn as (e' & -> & -> & _). done.
    - rewrite upd_rho_ne by done. unfold rho_of. specialize (Hx d Hd). destruct (m1 !! d) as [e1|], (m !! d) as [e|]; try done. simpl in Hx. injection Hx as _ -> _ _. done. }
  assert (Hr : forall d, rho_of m' d = upd_rho n l (rho_of m) d).
  { intros d. rewrite <-Hr1. unfold rho_of. specialize (Hfr d). destruct (m' !! d) as [e1|], (m1 !! d) as [e|]; try done. simpl in Hfr. injection Hfr as _ -> _ _ _. done. }
  assert (Hreg : forall d, is_Some (m' !! d) -> d <> n -> is_Some (m !! d)).
  { intros d [e He] Hd. specialize (Hfr d). rewrite He in Hfr. specialize (Hx d Hd). destruct (m1 !! d) as [e1|]; [|done]. destruct (m !! d); [by eexists|done]. }
  assert (Hregn : is_Some (m' !! n) -> l <> []).
  { intros [e He] ->. specialize (Hfr n). by rewrite He, Hn in Hfr. }
  assert (Hinn : forall f, m' !! n <> None -> inhb m' n f = get_or (In f) (inhb m n f)).
  { intros f Hs. rewrite (modify_inherited_inhb _ _ _ n f Hmi). fold (ilook c n f). rewrite Hi. unfold childI. rewrite name_eqb_refl. destruct (In f); [done|]. simpl.
    destruct l as [|x k]; [exfalso; apply (Hregn ltac:(destruct (m' !! n); [by eexists|done])); done|]. destruct Hn as (e' & He' & _ & _ & Hh'). rewrite <-Hh'. unfold inhb. by rewrite He'. }
  assert (Hind : forall d f, d <> n -> inhb m' d f = inhb' m n add rem d f).
  { intros d f Hd. rewrite (modify_inherited_inhb _ _ _ d f Hmi). fold (ilook c d f). rewrite Hi. unfold childI, inhb'.
    destruct (name_eqb d n) eqn:E; [by apply name_eqb_eq in E|]. destruct (if under m n d f then _ else _); [done|]. simpl.
    unfold inhb. specialize (Hx d Hd). destruct (m1 !! d) as [e1|], (m !! d) as [e|]; try done. simpl in Hx. injection Hx as _ _ _ ->. done. }
  assert (Hown : forall d f, own (rho_of m') d f = own (upd_rho n l (rho_of m)) d f) by (intros; unfold own; by rewrite Hr).
  assert (Hanc : forall d f, anc (rho_of m') d f = anc (upd_rho n l (rho_of m)) d f) by (intros; apply anc_ext; intros; apply Hr).
  split; [|exact Hr]. split.
  - eapply hier_ext; [|exact Hh]. intros x. specialize (Hfr x). destruct (m' !! x), (m1 !! x); try done. simpl in *. by injection Hfr as _ _ _ -> ->.
  - intros d e He. assert (rho_of m' d = re_routes e) as <- by (unfold rho_of; by rewrite He). rewrite Hr. destruct (decide (d = n)) as [->|Hd].
    + rewrite upd_rho_eq. apply Hregn. by eexists.
    + rewrite upd_rho_ne by done. destruct (Hreg d ltac:(by eexists) Hd) as [e0 He0]. unfold rho_of. rewrite He0. by apply (tm_some m Hm d).
  - intros d e He. specialize (Hfr d). rewrite He in Hfr. destruct (decide (d = n)) as [->|Hd].
    + destruct l as [|x k]; [by rewrite Hn in Hfr|]. destruct Hn as (e' & He' & Hl & Hc & _). rewrite He' in Hfr. simpl in Hfr. injection Hfr as _ -> -> _ _. by rewrite Hl.
    + specialize (Hx d Hd). destruct (m1 !! d) as [e1|]; [|done]. destruct (m !! d) as [e0|] eqn:E0; [|done]. simpl in *. injection Hfr as _ -> -> _ _. injection Hx as _ -> -> _.
      by apply (tm_ncap m Hm d).
  - intros d. rewrite Hr. destruct (decide (d = n)) as [->|Hd]; [by rewrite upd_rho_eq|]. rewrite upd_rho_ne by done. apply (tm_bound m Hm).
  - intros d r. rewrite Hr. destruct (decide (d = n)) as [->|Hd]; [rewrite upd_rho_eq; rewrite Forall_forall in Hfl; apply Hfl|]. rewrite upd_rho_ne by done. apply (tm_flags m Hm).
  - intros d. rewrite Hr. destruct (decide (d = n)) as [->|Hd]; [by rewrite upd_rho_eq|]. rewrite upd_rho_ne by done. apply (tm_faces m Hm).
  - intros d. rewrite Hr. destruct (decide (d = n)) as [->|Hd]; [by rewrite upd_rho_eq|]. rewrite upd_rho_ne by done. apply (tm_key m Hm).
  - intros d f Hs Ho Hcap Ha. rewrite Hown in Ho. rewrite Hanc in Ha. rewrite Hr in Hcap. destruct (decide (d = n)) as [->|Hd].
    + rewrite Hinn by (destruct Hs as [? ->]; done). rewrite own_upd in Ho. rewrite anc_upd_same in Ha. rewrite upd_rho_eq in Hcap. apply N2; [by apply Hregn|done|done|done].
    + rewrite Hind by done. apply (children_inh m n l add rem Hm Hfit); try done. by apply Hreg.
  - intros d f r Ho Hc. rewrite Hown in Ho. destruct (decide (d = n)) as [->|Hd].
    + rewrite own_upd in Ho. destruct (m' !! n) as [e|] eqn:E; [|unfold inhb; by rewrite E]. rewrite Hinn by congruence. by eapply N3.
    + rewrite Hind by done. by apply (children_own m n l add rem Hm d f r).
Qed.

(** ** What is computed is right for the new routes [l] of [n] *)
Definition good (m : rmap) (n : name) (l : list route) (f0 : N) (c : upd) : Prop :=
  exists add rem En In,
    eff (Upd f0 [] [] []) c (childE m n add rem En) (childI m n add rem In) /\ fit m n l add rem /\
    (forall f, get_or (En f) (want (rho_of m) n f) = want (upd_rho n l (rho_of m)) n f) /\
    (l <> [] -> captures l = false -> forall f, List.find (fun r => r_face r =? f)%N l = None -> anc (rho_of m) n f <> None -> get_or (In f) (inhb m n f) = true) /\
    (forall f r, List.find (fun r => r_face r =? f)%N l = Some r -> child_inherit r = false -> get_or (In f) (inhb m n f) = false) /\
    (l = [] -> forall f, In f = None).
Lemma upd0_ok f0 : upd_ok (Upd f0 [] [] []).
Proof. split; simpl; [intros u Hu; by apply elem_of_nil in Hu|intros u Hu; by apply elem_of_nil in Hu|constructor|constructor]. Qed.
Lemma want_upd m n l f : want (upd_rho n l (rho_of m)) n f =
  match List.find (fun r => r_face r =? f)%N l with Some r => Some (r_cost r) | None => match l with [] => None | _ => if captures l then None else option_map r_cost (anc (rho_of m) n f) end end.
Proof. unfold want. rewrite own_upd, upd_rho_eq, anc_upd_same. done. Qed.
Lemma tr_nil m d f : tr m [] [] d f = None.
Proof. unfold tr. simpl. destruct (negb _), (inhb m d f); done. Qed.
Lemma under_self m n f : under m n n f = false.
Proof. apply not_true_iff_false. intros (_ & H & _)%under_spec. by apply proper_irrefl in H. Qed.
(** no change below [n] *)
Lemma eff_only m n s c En In :
  eff s c (fun d f => if name_eqb d n then En f else None) (fun d f => if name_eqb d n then In f else None) -> eff s c (childE m n [] [] En) (childI m n [] [] In).
Proof.
  intros H. eapply eff_ext; [exact H|..]; intros d f; unfold childE, childI; rewrite tr_nil; destruct (name_eqb d n), (under m n d f); done.
Qed.
Lemma rs_get_one f r : rs_get f [r] = if (r_face r =? f)%N then Some r else None.
Proof. unfold rs_get. simpl. by destruct (r_face r =? f)%N. Qed.
Lemma orelse_none {A} (x : option A) : orelse x None = x.
Proof. by destruct x. Qed.

Definition at_ {A} (n : name) (g : N -> option A) (d : name) (f : N) : option A := if name_eqb d n then g f else None.
Definition one {A} (g : N) (x : A) (f : N) : option A := if (f =? g)%N then Some x else None.
Definition nothing {A} (f : N) : option A := None.
Lemma eff_at_add n u s : upd_ok s -> fu_name u = n -> eff s (add_fib_update u s) (at_ n (one (fu_face u) (effect u))) (at_ n nothing).
Proof.
  intros H <-. eapply eff_ext; [by apply eff_add|..]; intros d f; unfold at_, is_at, one; destruct (name_eqb d (fu_name u)); try done.
Qed.
Lemma eff_at_inherit a n r s : upd_ok s -> eff s (inherit a n r s) (at_ n nothing) (at_ n (one (r_face r) a)).
Proof. intros H. eapply eff_ext; [by apply eff_inherit|..]; intros d f; unfold at_, one; destruct (name_eqb d n); done. Qed.
Lemma eff_at_trans n s1 s2 s3 E1 I1 E2 I2 :
  eff s1 s2 (at_ n E1) (at_ n I1) -> eff s2 s3 (at_ n E2) (at_ n I2) -> eff s1 s3 (at_ n (fun f => over (E2 f) (E1 f))) (at_ n (fun f => over (I2 f) (I1 f))).
Proof. intros H K. eapply eff_ext; [eapply eff_trans; [exact H|exact K]|..]; intros d f; unfold at_; destruct (name_eqb d n); done. Qed.
Lemma eff_at_child m n s c En In : eff s c (at_ n En) (at_ n In) -> eff s c (childE m n [] [] En) (childI m n [] [] In).
Proof. apply eff_only. Qed.
Lemma eff_child_at m n add rem s1 s2 s3 E1 I1 E2 I2 :
  eff s1 s2 (childE m n add rem E1) (childI m n add rem I1) -> eff s2 s3 (at_ n E2) (at_ n I2) ->
  eff s1 s3 (childE m n add rem (fun f => over (E2 f) (E1 f))) (childI m n add rem (fun f => over (I2 f) (I1 f))).
Proof. intros H K. eapply eff_ext; [eapply eff_trans; [exact H|exact K]|..]; intros d f; unfold at_, childE, childI; destruct (name_eqb d n); done. Qed.
Lemma eff_at_modify (m : rmap) n l add rem s0 s E I :
  tame_map m -> rs_sorted add -> rs_sorted rem -> tops m n l -> eff s0 s (at_ n E) (at_ n I) ->
  exists s', modify_children m l add rem s = Some s' /\ eff s0 s' (childE m n add rem E) (childI m n add rem I).
Proof.
  intros Hm Ha Hr Ht He. destruct (modify_children_ok m n l add rem s (tm_hier m Hm) (tame_count m Hm) Ha Hr Ht ltac:(apply He)) as (s' & E' & H).
  exists s'. split; [done|]. eapply eff_ext; [eapply eff_trans; [exact He|exact H]|..]; intros d f; unfold at_, childE, childI; simpl; destruct (name_eqb d n) eqn:En.
  - apply name_eqb_eq in En as ->. by rewrite under_self.
  - by rewrite over_none.
  - apply name_eqb_eq in En as ->. by rewrite under_self.
  - rewrite over_none. by destruct (under m n d f).
Qed.
Lemma loopE_at a n q l : forall d f, loopE a n q l d f = at_ n (fun f => if q f then option_map (fun r => effect (upd_of a n r)) (rs_get f l) else None) d f.
Proof. intros d f. unfold loopE, at_. by destruct (name_eqb d n). Qed.
Lemma loopI_at a n q l : forall d f, is_added (loopE a n q l d f) = at_ n (fun f => if q f then option_map (fun r => a) (rs_get f l) else None) d f.
Proof. intros d f. unfold loopE, at_. destruct (name_eqb d n); [|done]. simpl. destruct (q f); [|done]. destruct (rs_get f l); [|done]. by destruct a. Qed.

Lemma eff_at_none n s : upd_ok s -> eff s s (at_ n nothing) (at_ n nothing).
Proof. intros H. eapply eff_ext; [by apply eff_refl|..]; intros d f; unfold at_; by destruct (name_eqb d n). Qed.

(** *** a prefix without routes *)
Lemma tops_new (m : rmap) n : tame_map m -> m !! n = None ->
  tops m n (List.filter (fun c => match m !! c with Some ce => opt_name_eqb (re_parent ce) (find_parent m n) | None => false end) (find_descendants_new m n)).
Proof.
  intros Hm Hn c. rewrite elem_of_list_In, filter_In, <-elem_of_list_In, find_descendants_new_spec. split.
  - intros [[[ce Hc] Hp] Hq]. rewrite Hc in Hq. apply opt_name_eqb_eq in Hq. rewrite (h_parent m (tm_hier m Hm) c ce Hc) in Hq.
    assert (Hnc : proper_prefix n c) by (split; [done|intros ->; congruence]). split; [by eexists|]. split; [done|].
    intros q Hq1 Hq2. destruct (m !! q) as [qe|] eqn:Eq; [|done]. exfalso.
    destruct (find_parent m c) as [p|] eqn:Ep.
    + apply find_parent_some in Ep as (_ & _ & H3). symmetry in Hq. apply find_parent_some in Hq as (_ & H5 & _).
      assert (q `prefix_of` p) by (apply H3; [by eexists|done]). eapply (proper_irrefl n), proper_trans; [|exact H5]. by eapply proper_le_prefix.
    + by rewrite (proj1 (find_parent_none m c) Ep q Hq2) in Eq.
  - intros ([ce Hc] & Hp & Hq). split; [split; [by eexists|apply Hp]|]. rewrite Hc. apply opt_name_eqb_eq. rewrite (h_parent m (tm_hier m Hm) c ce Hc).
    destruct (find_parent m n) as [p|] eqn:Ep.
    + apply find_parent_some in Ep as (H1 & H2 & H3). apply find_parent_some. split; [done|]. split; [by eapply proper_trans|].
      intros q Hqs Hqc. destruct (prefix_cases q n c) as [->|[H|H]]; [apply Hqc|apply Hp|by destruct Hqs; congruence|by apply H3|].
      rewrite (Hq q H Hqc) in Hqs. by destruct Hqs.
    + apply find_parent_none. intros q Hqc. destruct (prefix_cases q n c) as [->|[H|H]]; [apply Hqc|apply Hp|done|by apply (proj1 (find_parent_none m n) Ep)|by apply Hq].
Qed.
Lemma good_new_entry (m : rmap) n r : tame_map m -> m !! n = None ->
  exists c, compute_register m n r (Upd (r_face r) [] [] []) = Some c /\ good m n [r] (r_face r) c.
Proof.
  intros Hm Hn. unfold compute_register. rewrite Hn. unfold for_new_entry.
  destruct (ancestor_routes_ok m n (tm_hier m Hm) (tame_count m Hm)) as (al & Ea & Hs & Hg). rewrite Ea. simpl.
  pose proof (eff_at_add n (add_update n (r_face r) (r_cost r)) _ (upd0_ok (r_face r)) eq_refl) as H1. simpl in H1.
  set (s1 := add_fib_update (add_update n (r_face r) (r_cost r)) (Upd (r_face r) [] [] [])) in *.
  assert (Hcr : captures [r] = rib_capture r) by (simpl; apply orb_false_r).
  assert (Hrn : rho_of m n = []) by (unfold rho_of; by rewrite Hn).
  destruct (rib_capture r) eqn:Ecap.
  { set (add := if child_inherit r then [r] else []). assert (Hsa : rs_sorted add) by (unfold add; by destruct (child_inherit r)).
    destruct (eff_at_modify m n _ add al _ s1 _ _ Hm Hsa Hs (tops_new m n Hm Hn) H1) as (c & E & H4).
    exists c. split; [unfold add in E; by destruct (child_inherit r)|]. eexists add, al, _, _. split; [exact H4|]. split.
    { intros f old new. unfold new, old, passes. rewrite Hrn, Hcr, Hg. simpl. unfold on_ci, add. destruct (child_inherit r).
      - rewrite rs_get_one, andb_true_r. destruct (r_face r =? f)%N; simpl; [done|]. by destruct (anc (rho_of m) n f).
      - rewrite andb_false_r. simpl. by destruct (anc (rho_of m) n f). }
    split.
    { intros f. rewrite want_upd, Hcr. unfold one. rewrite (N.eqb_sym f). simpl. destruct (r_face r =? f)%N; simpl; [done|]. unfold want, own. by rewrite Hrn. }
    split; [intros _ K; by rewrite Hcr in K|]. split; [|done]. intros f x _ _. simpl. unfold inhb. by rewrite Hn. }
  pose proof (add_inherited_but_ok n al r s1 Hs ltac:(apply H1)) as H2. simpl in H2.
  eapply eff_ext in H2; [|apply loopE_at|apply loopI_at]. pose proof (eff_at_trans _ _ _ _ _ _ _ _ H1 H2) as H3. clear H2.
  set (s2 := add_inherited_but n al r s1) in *.
  assert (Hw : forall f, want (rho_of m) n f = None).
  { intros f. unfold want, own, rho_of. by rewrite Hn. }
  assert (Hci : forall f, ci (rho_of m) n f = None) by (intros; by apply ci_unreg).
  assert (Hinh : forall f, inhb m n f = false) by (intros; unfold inhb; by rewrite Hn).
  set (En f := over (if negb (f =? r_face r)%N then option_map (fun r0 => effect (upd_of true n r0)) (rs_get f al) else None) (one (r_face r) (effect (add_update n (r_face r) (r_cost r))) f)) in *.
  set (In f := over (if negb (f =? r_face r)%N then option_map (fun _ : route => true) (rs_get f al) else None) (@nothing bool f)) in *.
  assert (N1 : forall f, get_or (En f) (want (rho_of m) n f) = want (upd_rho n [r] (rho_of m)) n f).
  { intros f. rewrite Hw, want_upd, Hcr. unfold En, one. rewrite Hg. simpl. rewrite (N.eqb_sym f). destruct (N.eqb_spec (r_face r) f) as [E|E]; simpl; [done|].
    by destruct (anc (rho_of m) n f). }
  assert (N2 : forall f, List.find (fun r => r_face r =? f)%N [r] = None -> anc (rho_of m) n f <> None -> get_or (In f) (inhb m n f) = true).
  { intros f Ho Ha. unfold In. rewrite Hg. simpl in Ho. rewrite (N.eqb_sym f). destruct (N.eqb_spec (r_face r) f) as [E|E]; simpl; [done|]. by destruct (anc (rho_of m) n f). }
  assert (N3 : forall f x, List.find (fun r => r_face r =? f)%N [r] = Some x -> child_inherit x = false -> get_or (In f) (inhb m n f) = false).
  { intros f x Ho Hc. unfold In. simpl in Ho. rewrite (N.eqb_sym f). destruct (N.eqb_spec (r_face r) f) as [E|E]; [|done]. simpl. by rewrite Hinh. }
  destruct (child_inherit r) eqn:Ec.
  - destruct (eff_at_modify m n _ (rs_insert r (rs_remove r al)) [] _ s2 _ _ Hm (rs_insert_sorted r _ (rs_remove_sorted r al Hs)) I (tops_new m n Hm Hn) H3) as (c & E & H4).
    exists c. split; [exact E|]. exists (rs_insert r (rs_remove r al)), [], En, In. split; [exact H4|]. split; [|done].
    intros f old new. unfold new, old, passes. rewrite rs_insert_get by (by apply rs_remove_sorted). rewrite rs_remove_get, Hg, Hcr, Hrn. simpl. unfold on_ci. rewrite Ec, andb_true_r. simpl.
    destruct (N.eqb_spec (r_face r) f) as [E'|E']; simpl; [done|]. by destruct (anc (rho_of m) n f).
  - exists s2. split; [done|]. exists [], [], En, In. split; [by apply eff_at_child|]. split; [|done].
    intros f old new. unfold new, old, passes. rewrite Hcr, Hrn. simpl. unfold on_ci. by rewrite Ec, andb_false_r.
Qed.

(** *** a prefix with routes *)
Lemma inhb_inherited (R : rib) n f : inhb (rb_map R) n f = false <-> f ∉ inherited_at R n.
Proof.
  unfold inhb, inherited_at. destruct (rb_map R !! n) as [e|]; [|split; [intros _ H; by apply elem_of_nil in H|done]].
  rewrite <-not_true_iff_false, existsb_exists. split.
  - intros H (x & -> & Hx)%elem_of_list_fmap. apply H. exists x. split; [by apply elem_of_list_In|]. by apply N.eqb_eq.
  - intros H (x & Hx & E). apply H. apply elem_of_list_fmap. exists x. apply N.eqb_eq in E. split; [done|]. by apply elem_of_list_In.
Qed.
Lemma want_reg (m : rmap) n e f : tame_map m -> m !! n = Some e ->
  want (rho_of m) n f = match List.find (fun r => r_face r =? f)%N (re_routes e) with Some r => Some (r_cost r) | None => if captures (re_routes e) then None else option_map r_cost (anc (rho_of m) n f) end.
Proof.
  intros Hm He. assert (rho_of m n = re_routes e) as Hr by (unfold rho_of; by rewrite He). unfold want, own. rewrite Hr. destruct (List.find _ _); [done|].
  pose proof (tm_some m Hm n e He). by destruct (re_routes e).
Qed.
Lemma good_new_route (m : rmap) n e r : tame_map m -> m !! n = Some e -> find_route r (re_routes e) = None ->
  r_face r ∉ map r_face (re_routes e) -> (child_inherit r = false -> inhb m n (r_face r) = false) ->
  (rib_capture r = true -> captures (re_routes e) = false -> forall x, x ∈ re_routes e -> anc (rho_of m) n (r_face x) = None) ->
  exists c, compute_register m n r (Upd (r_face r) [] [] []) = Some c /\ good m n (re_routes e ++ [r]) (r_face r) c.
Proof.
  intros Hm He Hfr Hnf Hsafe Hsc. unfold compute_register. rewrite He, Hfr, (tame_count m Hm n e He). unfold for_new_route.
  assert (Hr : rho_of m n = re_routes e) by (unfold rho_of; by rewrite He).
  assert (Hnd : NoDup (map r_face (re_routes e))) by (rewrite <-Hr; apply (tm_faces m Hm)).
  assert (lowest_inherit_on (r_face r) e = None) as ->.
  { unfold lowest_inherit_on. rewrite (lowest_find (r_face r)); [|apply on_face_ci|done]. by apply (find_none_face (r_face r)); [apply on_face_ci|]. }
  assert (lowest_on (r_face r) e = None) as ->.
  { unfold lowest_on. rewrite (lowest_find (r_face r)); [|apply on_face_own|done]. by apply (find_none_face (r_face r)); [apply on_face_own|]. }
  rewrite andb_true_r. set (add := if child_inherit r then [r] else []). set (cap := negb (captures (re_routes e)) && rib_capture r).
  assert (Hs : rs_sorted add) by (unfold add; by destruct (child_inherit r)).
  destruct (ancestor_routes_ok m n (tm_hier m Hm) (tame_count m Hm)) as (al0 & Ea & Hs0 & Hg0).
  set (al := if cap then al0 else []).
  assert ((if cap then ancestor_routes m (re_parent e) else Some []) = Some al) as ->.
  { unfold al. rewrite (h_parent m (tm_hier m Hm) n e He). by destruct cap. }
  cbn [obind]. assert (Hsal : rs_sorted al) by (unfold al; by destruct cap).
  assert (Hg : forall f, rs_get f al = if cap then anc (rho_of m) n f else None) by (intros f; unfold al; by destruct cap).
  set (s0 := Upd (r_face r) [] [] []). set (s1 := if cap then remove_inherited_routes n e al s0 else s0).
  set (Er f := if cap && inhb m n f then option_map (fun _ => None) (anc (rho_of m) n f) else None : option (option N)).
  set (Ir f := if cap && inhb m n f then option_map (fun _ => false) (anc (rho_of m) n f) else None : option bool).
  assert (H1 : eff s0 s1 (at_ n Er) (at_ n Ir)).
  { unfold s1, Er, Ir. destruct cap eqn:Ec; [|by apply eff_at_none, upd0_ok].
    pose proof (remove_inherited_routes_ok n e al s0 Hsal (upd0_ok _)) as K. cbv zeta in K.
    eapply eff_ext; [exact K|..]; intros d f; cbv beta; [rewrite loopE_at|rewrite loopI_at]; unfold at_; destruct (name_eqb d n); try done; simpl; unfold inhb; rewrite He, Hg;
      fold (has_inh f e); destruct (has_inh f e); try done; by destruct (anc (rho_of m) n f). }
  destruct (eff_at_modify m n (re_children e) add al _ _ _ _ Hm Hs Hsal (tops_children m n e (tm_hier m Hm) He) H1) as (s2 & E2 & H2). rewrite E2. cbn [obind].
  pose proof (eff_at_add n (add_update n (r_face r) (r_cost r)) s2 ltac:(apply H2) eq_refl) as H3. cbn [fu_face add_update] in H3.
  eexists. split; [done|]. eexists add, al, _, _.
  split; [exact (eff_child_at _ _ _ _ _ _ _ _ _ _ _ H2 H3)|].
  assert (Hfind : forall f P, on_face f P -> List.find P (re_routes e ++ [r]) = if (r_face r =? f)%N then (if P r then Some r else None) else List.find P (re_routes e)).
  { intros f P HP. rewrite (find_mid f P (re_routes e) r []); [by rewrite app_nil_r|done|]. rewrite map_app. apply NoDup_app. split; [done|]. split; [|apply NoDup_singleton].
    intros x Hx ->%elem_of_list_singleton. done. }
  assert (Hcapl : captures (re_routes e ++ [r]) = captures (re_routes e) || cap).
  { rewrite captures_app. simpl. rewrite orb_false_r. unfold cap. by destruct (captures (re_routes e)). }
  (* an own route is on a face that no ancestor has *)
  assert (Hno : forall f x, cap = true -> List.find (fun r => r_face r =? f)%N (re_routes e) = Some x -> anc (rho_of m) n f = None).
  { intros f x Ec Hx. unfold cap in Ec. apply andb_true_iff in Ec as [Ec1 Ec2]. apply negb_true_iff in Ec1. apply find_some_in in Hx as [Hx Hf]. simpl in Hf. apply N.eqb_eq in Hf as <-. by apply Hsc. }
  assert (Hnoci : forall f x, cap = true -> List.find (on_ci f) (re_routes e) = Some x -> anc (rho_of m) n f = None).
  { intros f x Ec Hx. destruct (List.find (fun r => r_face r =? f)%N (re_routes e)) as [y|] eqn:Ey; [by eapply Hno|].
    apply find_some_in in Hx as [Hx Hf]. eapply find_none_in in Hx; [|exact Ey]. unfold on_ci in Hf. simpl in Hx. by rewrite Hx in Hf. }
  split.
  { intros f old new. unfold new, old, passes, add. rewrite (Hfind f) by apply on_face_ci. rewrite Hr, Hcapl, Hg.
    assert (on_ci f r = (r_face r =? f)%N && child_inherit r) as -> by done. destruct (N.eqb_spec (r_face r) f) as [E|E]; simpl.
    - rewrite (find_none_face f _ (re_routes e)); [|apply on_face_ci|congruence]. destruct (child_inherit r); simpl.
      + unfold rs_get; simpl. by rewrite E, N.eqb_refl.
      + destruct cap eqn:Ec; simpl; [|by rewrite orb_false_r]. rewrite orb_true_r. destruct (anc (rho_of m) n f); [done|]. by destruct (captures (re_routes e)).
    - assert (rs_get f (if child_inherit r then [r] else []) = None) as ->. { destruct (child_inherit r); [|done]. unfold rs_get; simpl. by rewrite (proj2 (N.eqb_neq _ _) E). }
      destruct cap eqn:Ec; [|by rewrite orb_false_r]. rewrite orb_true_r. destruct (List.find (on_ci f) (re_routes e)) as [x|] eqn:Ex; simpl; [by rewrite (Hnoci f x)|].
      destruct (anc (rho_of m) n f); [done|]. by destruct (captures (re_routes e)). }
  split.
  { intros f. rewrite (want_reg m n e f Hm He), want_upd, (Hfind f) by apply on_face_own. rewrite Hcapl. unfold one, Er. rewrite (N.eqb_sym f). destruct (N.eqb_spec (r_face r) f) as [E|E]; simpl; [done|].
    assert (exists z k, re_routes e ++ [r] = z :: k) as (z & k & ->) by (destruct (re_routes e); by eexists _, _).
    destruct cap eqn:Ec; simpl; [|rewrite orb_false_r; done]. rewrite orb_true_r.
    assert (captures (re_routes e) = false) as Ecf. { unfold cap in Ec. by apply andb_true_iff in Ec as [?%negb_true_iff _]. } rewrite Ecf.
    destruct (List.find _ (re_routes e)) as [x|] eqn:Ex; [rewrite (Hno f x) by done; by destruct (inhb m n f)|].
    destruct (anc (rho_of m) n f) eqn:Eanc; [|by destruct (inhb m n f)]. assert (inhb m n f = true) as ->; [|done].
    apply (tm_inh m Hm); [by eexists|unfold own; by rewrite Hr|by rewrite Hr|congruence]. }
  split.
  { intros _ Hcf f Ho Ha. simpl. rewrite Hcapl in Hcf. apply orb_false_iff in Hcf as [Hc1 Hc2]. unfold Ir. rewrite Hc2. simpl. rewrite (Hfind f) in Ho by apply on_face_own.
    destruct (r_face r =? f)%N; [done|]. apply (tm_inh m Hm); [by eexists|unfold own; by rewrite Hr|by rewrite Hr|done]. }
  split.
  { intros f x Ho Hc. simpl. rewrite (Hfind f) in Ho by apply on_face_own. unfold Ir.
    assert (inhb m n f = false) as Hif.
    { destruct (N.eqb_spec (r_face r) f) as [<-|E].
      - injection Ho as <-. by apply Hsafe.
      - eapply (tm_own m Hm); [|exact Hc]. unfold own. by rewrite Hr. }
    by rewrite Hif, andb_false_r. }
  intros K. by apply app_nil in K as [_ K].
Qed.

Lemma find_route_split (m : rmap) n e r old : tame_map m -> m !! n = Some e -> find_route r (re_routes e) = Some old ->
  exists l1 l2, re_routes e = l1 ++ old :: l2 /\ drop_route r (re_routes e) = l1 ++ l2 /\ key old = key r /\
    (forall y, replace_first (fun x => same_route x r) y (re_routes e) = l1 ++ y :: l2) /\ NoDup (map r_face (l1 ++ old :: l2)).
Proof.
  intros Hm He Hf. destruct (remove_first_split _ _ _ Hf) as (l1 & l2 & H1 & H2 & H3 & H4 & H5). apply same_route_key in H4.
  exists l1, l2. split; [done|]. split; [done|]. split; [done|]. split.
  - intros y. rewrite H1. clear -H4 H5. induction H5 as [|x l1 Hx _ IH]; simpl.
    + destruct (same_route old r) eqn:E; [done|]. apply not_true_iff_false in E. destruct E. by apply same_route_key.
    + rewrite Hx. by rewrite IH.
  - rewrite <-H1. pose proof (tm_faces m Hm n) as K. unfold rho_of in K. by rewrite He in K.
Qed.
Lemma good_update (m : rmap) n e r old : tame_map m -> m !! n = Some e -> (r_flags r < 4)%N -> find_route r (re_routes e) = Some old ->
  (child_inherit r = false -> inhb m n (r_face r) = false) -> rib_capture old = rib_capture r ->
  (child_inherit old = true -> child_inherit r = false -> captures (re_routes e) = true -> anc (rho_of m) n (r_face r) = None) ->
  exists c, compute_register m n r (Upd (r_face r) [] [] []) = Some c /\ good m n (put_route r (re_routes e)) (r_face r) c.
Proof.
  intros Hm He Hf Hfr Hsafe Hsteady Hsd. unfold compute_register. rewrite He, Hfr.
  destruct (find_route_split m n e r old Hm He Hfr) as (l1 & l2 & Hl & _ & Hk & Hrep & Hnd).
  assert (Hr : rho_of m n = re_routes e) by (unfold rho_of; by rewrite He).
  injection Hk as Hk1 Hk2. assert (Route (r_face old) (r_origin old) (r_cost r) (r_flags r) (r_expires r) = r) as -> by (rewrite Hk1, Hk2; by destruct r).
  assert (put_route r (re_routes e) = l1 ++ r :: l2) as -> by (unfold put_route; by rewrite Hfr, Hrep). rewrite Hrep.
  assert (Hnd' : NoDup (map r_face (l1 ++ r :: l2))). { rewrite map_app in *. simpl in *. by rewrite <-Hk1. }
  assert (Hfo : (r_flags old < 4)%N). { apply (tm_flags m Hm n). rewrite Hr, Hl. set_solver. }
  assert (Hcl : captures (l1 ++ r :: l2) = captures (re_routes e)) by (by rewrite Hl, !captures_mid, Hsteady).
  unfold for_updated_route. cbn [re_children re_parent re_routes set_re_routes].
  assert (lowest_inherit_on (r_face r) (set_re_routes (l1 ++ r :: l2) e) = if child_inherit r then Some r else None) as ->.
  { unfold lowest_inherit_on. cbn [re_routes set_re_routes]. rewrite (lowest_find (r_face r)); [|apply on_face_ci|done]. rewrite (find_mid (r_face r)); [|apply on_face_ci|done]. by rewrite N.eqb_refl. }
  assert (lowest_on (r_face r) (set_re_routes (l1 ++ r :: l2) e) = Some r) as ->.
  { unfold lowest_on. cbn [re_routes set_re_routes]. rewrite (lowest_find (r_face r)); [|apply on_face_own|done]. rewrite (find_mid (r_face r)); [|apply on_face_own|done]. by rewrite N.eqb_refl. }
  assert (match (if child_inherit r then Some r else None) with Some p => (r_cost r <=? r_cost p)%N | None => true end = true) as ->.
  { destruct (child_inherit r); [|done]. by apply N.leb_refl. }
  rewrite (flags_eqb r old Hf Hfo Hsteady), Hsteady. assert (negb (rib_capture r) && rib_capture r = false) as -> by (by destruct (rib_capture r)).
  assert (rib_capture r && negb (rib_capture r) = false) as -> by (by destruct (rib_capture r)). cbn [negb andb obind]. rewrite N.leb_refl.
  (* the nexthop of the prefix *)
  set (s1 := if negb (r_cost r =? r_cost old)%N then add_fib_update (add_update n (r_face r) (r_cost r)) (Upd (r_face r) [] [] []) else Upd (r_face r) [] [] []).
  set (En f := if negb (r_cost r =? r_cost old)%N then one (r_face r) (Some (r_cost r)) f else None).
  assert (H1 : eff (Upd (r_face r) [] [] []) s1 (at_ n En) (at_ n nothing)).
  { unfold s1, En. destruct (negb _); [exact (eff_at_add n (add_update n (r_face r) (r_cost r)) _ (upd0_ok (r_face r)) eq_refl)|by apply eff_at_none, upd0_ok]. }
  assert (Hwrap : forall add rem c, eff (Upd (r_face r) [] [] []) c (childE m n add rem En) (childI m n add rem nothing) -> fit m n (l1 ++ r :: l2) add rem ->
            good m n (l1 ++ r :: l2) (r_face r) c).
  { intros add rem c H2 Hfit. exists add, rem, En, nothing. split; [done|]. split; [done|]. split.
    { intros f. rewrite (want_reg m n e f Hm He), want_upd, Hcl, Hl. rewrite (find_mid f) by (apply on_face_own || done). rewrite (find_mid f) by (apply on_face_own || done).
      rewrite Hk1. unfold En, one. rewrite (N.eqb_sym f). destruct (N.eqb_spec (r_face r) f) as [E|E].
      - rewrite E in *. simpl. destruct (N.eqb_spec (r_cost r) (r_cost old)) as [Ec|Ec]; simpl; [by rewrite Ec|done].
      - destruct (negb _); simpl; destruct (List.find _ _); try done; by destruct l1. }
    split.
    { intros _ Hcf f Ho Ha. simpl. rewrite Hcl in Hcf. apply (tm_inh m Hm); [by eexists| |by rewrite Hr|done]. unfold own. rewrite Hr, Hl. rewrite (find_mid f) in Ho by (apply on_face_own || done). rewrite (find_mid f) by (apply on_face_own || done).
      rewrite Hk1. by destruct (N.eqb_spec (r_face r) f). }
    split; [|by destruct l1].
    intros f x Ho Hc. simpl. rewrite (find_mid f) in Ho by (apply on_face_own || done). destruct (N.eqb_spec (r_face r) f) as [<-|E].
    - injection Ho as <-. by apply Hsafe.
    - eapply (tm_own m Hm); [|exact Hc]. unfold own. rewrite Hr, Hl. rewrite (find_mid f) by (apply on_face_own || done). rewrite Hk1. by rewrite (proj2 (N.eqb_neq _ _) E). }
  assert (Hfits : forall add rem, (forall f, f <> r_face r -> rs_get f add = None /\ rs_get f rem = None) ->
            (let f := r_face r in let up := if captures (re_routes e) then None else anc (rho_of m) n f in let old' := orelse (if child_inherit old then Some old else None) up in
             let new := orelse (if child_inherit r then Some r else None) up in
             match rs_get f add with Some x => option_map r_cost new = Some (r_cost x) | None => match rs_get f rem with Some _ => new = None | None => option_map r_cost new = option_map r_cost old' end end) ->
            fit m n (l1 ++ r :: l2) add rem).
  { intros add rem Ho Hs f old' new. unfold old', new, passes. rewrite Hcl, Hr. rewrite (find_mid f) by (apply on_face_ci || done).
    assert (List.find (on_ci f) (re_routes e) = if (r_face old =? f)%N then (if on_ci f old then Some old else None) else List.find (on_ci f) (l1 ++ l2)) as -> by (rewrite Hl; apply (find_mid f); [apply on_face_ci|done]).
    assert (Hon : forall x, on_ci f x = (r_face x =? f)%N && child_inherit x) by done. rewrite (Hon r), (Hon old), Hk1. destruct (N.eqb_spec (r_face r) f) as [E|E].
    - subst f. cbn [andb]. exact Hs.
    - destruct (Ho f ltac:(congruence)) as [-> ->]. done. }
  assert (Hone : forall f, f <> r_face r -> rs_get f [r] = None).
  { intros f Hne. rewrite rs_get_one. by rewrite (proj2 (N.eqb_neq (r_face r) f)) by congruence. }
  assert (Hself : rs_get (r_face r) [r] = Some r) by (rewrite rs_get_one; by rewrite N.eqb_refl).
  assert (Hgain : child_inherit r = true -> fit m n (l1 ++ r :: l2) [r] []).
  { intros Hc. apply Hfits; [intros f Hne; split; [by apply Hone|done]|]. cbv zeta. rewrite Hself, Hc. done. }
  pose proof (tops_children m n e (tm_hier m Hm) He) as Ht.
  destruct (eqb (child_inherit r) (child_inherit old) && negb (negb (r_cost r =? r_cost old)%N)) eqn:Esame.
  { apply andb_true_iff in Esame as [Eci Eco]. apply eqb_prop in Eci. rewrite negb_involutive in Eco. apply N.eqb_eq in Eco.
    eexists. split; [done|]. apply (Hwrap [] []).
    - assert (s1 = Upd (r_face r) [] [] []) as <- by (unfold s1; by rewrite Eco, N.eqb_refl). apply eff_at_child. unfold s1 at 1. rewrite Eco, N.eqb_refl. exact H1.
    - apply Hfits; [done|]. simpl. rewrite Eci. destruct (child_inherit old); simpl; [by rewrite Eco|done]. }
  assert ((if negb (r_cost r =? r_cost old)%N then Some (add_fib_update (add_update n (r_face r) (r_cost r)) (Upd (r_face r) [] [] [])) else Some (Upd (r_face r) [] [] [])) = Some s1) as ->.
  { unfold s1. by destruct (negb _). }
  cbn [obind]. destruct (child_inherit r) eqn:Ecr, (child_inherit old) eqn:Eco; cbn [negb andb eqb] in *; rewrite ?andb_true_r, ?andb_false_r in *.
  - (* both *) destruct (negb (r_cost r =? r_cost old)%N) eqn:Enc; [|done].
    destruct (eff_at_modify m n (re_children e) [r] [] _ s1 _ _ Hm ltac:(done) I Ht H1) as (c & E & H2). exists c. split; [exact E|]. by eapply Hwrap; [|apply Hgain].
  - (* now for the children *) destruct (eff_at_modify m n (re_children e) [r] [] _ s1 _ _ Hm ltac:(done) I Ht H1) as (c & E & H2). rewrite E. exists c. split; [done|]. by eapply Hwrap; [|apply Hgain].
  - (* no longer for the children *) destruct (ancestor_routes_ok m n (tm_hier m Hm) (tame_count m Hm)) as (al & Ea & Hs & Hg).
    rewrite (h_parent m (tm_hier m Hm) n e He), Ea. cbn [obind]. rewrite rs_find_get, Hg.
    set (add := match anc (rho_of m) n (r_face r) with Some x => [x] | None => [] end).
    destruct (eff_at_modify m n (re_children e) add [r] _ s1 _ _ Hm ltac:(unfold add; by destruct (anc _ _ _)) ltac:(done) Ht H1) as (c & E & H2). rewrite E. exists c. split; [done|].
    eapply Hwrap; [exact H2|]. apply Hfits.
    + intros f Hne. split; [|by apply Hone]. unfold add. destruct (anc (rho_of m) n (r_face r)) as [x|] eqn:Ex; [|done]. apply anc_face in Ex. rewrite rs_get_one.
      by rewrite (proj2 (N.eqb_neq (r_face x) f)) by congruence.
    + cbv zeta. rewrite Hself. unfold add. destruct (captures (re_routes e)) eqn:Ecap; [by rewrite (Hsd eq_refl eq_refl eq_refl)|].
      destruct (anc (rho_of m) n (r_face r)) as [x|] eqn:Ex; [|done]. apply anc_face in Ex. rewrite rs_get_one, Ex, N.eqb_refl. done.
  - (* neither *) exists s1. split; [done|]. eapply Hwrap; [by apply eff_at_child|]. apply Hfits; [done|]. done.
Qed.

(** *** an unregistered route *)
Lemma erased_entry_ok n l s E I :
  eff (Upd (u_face s) [] [] []) s E I -> upd_ok s ->
  eff s (fold_left (fun s r => add_fib_update (remove_update n (r_face r)) s) l s) (at_ n (fun f => if existsb (fun x => r_face x =? f)%N l then Some None else None)) (at_ n nothing).
Proof.
  intros _. revert s. induction l as [|x l IH]; intros s Ho; simpl; [by apply eff_at_none|].
  pose proof (eff_at_add n (remove_update n (r_face x)) s Ho eq_refl) as H1. simpl in H1.
  specialize (IH _ ltac:(apply H1)). eapply eff_ext; [exact (eff_at_trans _ _ _ _ _ _ _ _ H1 IH)|..]; intros d f; unfold at_, one, nothing; destruct (name_eqb d n); try done.
  rewrite (N.eqb_sym f). destruct (r_face x =? f)%N, (existsb _ l); done.
Qed.
Lemma erase_temp (m : rmap) n e r old l1 l2 : tame_map m -> m !! n = Some e -> find_route r (re_routes e) = Some old -> re_routes e = l1 ++ old :: l2 -> drop_route r (re_routes e) = l1 ++ l2 ->
  let t := erase_route r e in re_routes t = l1 ++ l2 /\ re_parent t = re_parent e /\ re_children t = re_children e /\ has_capture t = captures (l1 ++ l2) /\ re_ncap t = ncap (l1 ++ l2).
Proof.
  intros Hm He Hfr Hl Hdrop t. unfold t, erase_route. rewrite Hfr. fold (drop_route r (re_routes e)). rewrite Hdrop. cbn [re_routes re_parent re_children re_ncap set_re_routes].
  assert (Hn : re_ncap (if rib_capture old then set_re_ncap (dec64 (re_ncap e)) e else e) = ncap (l1 ++ l2)).
  { pose proof (tm_bound m Hm n) as Hb. assert (rho_of m n = re_routes e) as Hr by (unfold rho_of; by rewrite He). rewrite Hr in Hb.
    assert (Hc : ncap (re_routes e) = ((if rib_capture old then 1 else 0) + ncap (l1 ++ l2))%N).
    { rewrite Hl. unfold ncap. rewrite !List.filter_app. simpl. destruct (rib_capture old); rewrite ?app_length; simpl; lia. }
    pose proof (tm_ncap m Hm n e He) as K. destruct (rib_capture old); cbn [re_ncap set_re_ncap]; [|rewrite K, Hc; lia]. rewrite K, Hc in *. unfold dec64.
    replace (1 + ncap (l1 ++ l2) + (U64 - 1))%N with (ncap (l1 ++ l2) + 1 * U64)%N by (assert (1 <= U64)%N by (by vm_compute); lia). rewrite N.mod_add by (by vm_compute). apply N.mod_small. lia. }
  split; [done|]. split; [by destruct (rib_capture old)|]. split; [by destruct (rib_capture old)|]. split; [|done].
  unfold has_capture. cbn [re_ncap set_re_routes]. by rewrite Hn, ncap_captures.
Qed.
Lemma good_unregister (m : rmap) n e r old : tame_map m -> m !! n = Some e -> find_route r (re_routes e) = Some old ->
  (child_inherit old = true \/ rib_capture old = true -> captures (drop_route r (re_routes e)) = false -> forall f, f <> r_face r -> ci (rho_of m) n f <> None -> anc (rho_of m) n f = None) ->
  (rib_capture old = true -> drop_route r (re_routes e) = [] -> (forall d f, under m n d f = false) \/ (forall f, anc (rho_of m) n f = None)) ->
  exists c, compute_unregister m n r (Upd (r_face r) [] [] []) = Some c /\ good m n (drop_route r (re_routes e)) (r_face r) c.
Proof.
  intros Hm He Hfr Hsafe Hlast. unfold compute_unregister. rewrite He, Hfr.
  destruct (find_route_split m n e r old Hm He Hfr) as (l1 & l2 & Hl & Hdrop & Hk & _ & Hnd).
  assert (Hr : rho_of m n = re_routes e) by (unfold rho_of; by rewrite He).
  injection Hk as Hk1 Hk2. destruct (erase_temp m n e r old l1 l2 Hm He Hfr Hl Hdrop) as (T1 & T2 & T3 & T4 & _). rewrite Hdrop in *.
  assert (Hce : captures (re_routes e) = rib_capture old || captures (l1 ++ l2)) by (by rewrite Hl, captures_mid).
  set (t := erase_route r e) in *. rewrite (tame_count m Hm n e He), T4, Hce. unfold for_erased_route. rewrite T1, T2, T3, T4.
  destruct (ancestor_routes_ok m n (tm_hier m Hm) (tame_count m Hm)) as (al & Ea & Hs & Hg).
  rewrite (h_parent m (tm_hier m Hm) n e He), Ea. cbn [obind]. rewrite rs_find_get, Hg, Hk1.
  rewrite (second_none (r_face r) e) by (by rewrite Hl).
  assert (Hown : forall f, List.find (fun x => r_face x =? f)%N (l1 ++ l2) = if (r_face r =? f)%N then None else List.find (fun x => r_face x =? f)%N (re_routes e)).
  { intros f. rewrite (find_mid_drop f _ l1 old l2) by (apply on_face_own || done). by rewrite Hk1, Hl. }
  assert (Hci : forall f, List.find (on_ci f) (l1 ++ l2) = if (r_face r =? f)%N then None else List.find (on_ci f) (re_routes e)).
  { intros f. rewrite (find_mid_drop f _ l1 old l2) by (apply on_face_ci || done). by rewrite Hk1, Hl. }
  assert (Hcir : List.find (on_ci (r_face r)) (re_routes e) = if child_inherit old then Some old else None).
  { rewrite Hl, (find_mid (r_face r)) by (apply on_face_ci || done). unfold on_ci. by rewrite Hk1, N.eqb_refl. }
  assert (Hhf : forall f, has_face f t = isSome (List.find (fun x => r_face x =? f)%N (l1 ++ l2))) by (intros f; unfold has_face; rewrite T1; apply find_existsb).
  pose proof (eff_at_add n (remove_update n (r_face r)) _ (upd0_ok (r_face r)) eq_refl) as H1. cbn [fu_face remove_update] in H1.
  set (s1 := add_fib_update (remove_update n (r_face r)) (Upd (r_face r) [] [] [])) in *.
  pose proof (tops_children m n e (tm_hier m Hm) He) as Ht.
  set (co := rib_capture old) in *. set (cr := captures (l1 ++ l2)) in *. set (ce := child_inherit old) in *.
  set (emp := match l1 ++ l2 with [] => true | _ => false end).
  set (add0 := if co then (if (co || cr) && negb cr && negb emp then al else []) else if ce then (if cr then [] else al) else []).
  set (add := if ce || co then (if cr then [] else al) else []). set (rem := if ce then [old] else []).
  set (Eo := one (r_face r) (effect (remove_update n (r_face r)))) in *.
  set (Ea1 f := if co && negb cr && negb emp && negb (has_face f t) then option_map (fun x => Some (r_cost x)) (anc (rho_of m) n f) else None : option (option N)).
  set (Ia1 f := if co && negb cr && negb emp && negb (has_face f t) then option_map (fun _ => true) (anc (rho_of m) n f) else None : option bool).
  assert (Hadd0s : rs_sorted add0) by (unfold add0; destruct co, ce, (_ && _ && _), cr; done).
  assert (Hrems : rs_sorted rem) by (unfold rem; by destruct ce).
  (* the inherited routes of the prefix *)
  assert (Ha0 : co = true -> forall f, rs_get f add0 = if negb cr && negb emp then anc (rho_of m) n f else None).
  { intros Eco f. unfold add0. rewrite Eco. cbn [orb andb]. destruct (negb cr && negb emp); [apply Hg|done]. }
  set (s2 := if co then add_inherited_routes n t add0 s1 else s1).
  assert (H2 : eff (Upd (r_face r) [] [] []) s2 (at_ n (fun f => over (Ea1 f) (Eo f))) (at_ n (fun f => over (Ia1 f) (@nothing bool f)))).
  { unfold s2. destruct co eqn:Eco.
    - pose proof (add_inherited_routes_ok n t add0 s1 Hadd0s ltac:(apply H1)) as K. cbv zeta in K. eapply eff_ext in K; [|apply loopE_at|apply loopI_at].
      eapply eff_ext; [exact (eff_at_trans _ _ _ _ _ _ _ _ H1 K)|..]; intros d f; unfold at_; destruct (name_eqb d n); try done; unfold Ea1, Ia1; rewrite Ha0 by done; cbn [andb];
        destruct (has_face f t), (negb cr && negb emp); cbn [negb andb option_map over]; try done; by destruct (anc (rho_of m) n f).
    - eapply eff_ext; [exact H1|..]; intros d f; unfold at_; destruct (name_eqb d n); done. }
  assert (exists s3, (if ce || co then modify_children m (re_children e) add0 rem s2 else Some s2) = Some s3 /\
           eff (Upd (r_face r) [] [] []) s3 (childE m n add rem (fun f => over (Ea1 f) (Eo f))) (childI m n add rem (fun f => over (Ia1 f) (@nothing bool f)))) as (s3 & E3 & H3).
  { destruct (ce || co) eqn:Ecc.
    - destruct (eff_at_modify m n (re_children e) add0 rem _ s2 _ _ Hm Hadd0s Hrems Ht H2) as (c & E & K). exists c. split; [done|].
      assert (Htr : forall d f, under m n d f = true -> tr m add0 rem d f = tr m add rem d f).
      { intros d f Hu. assert (rs_get f add0 = rs_get f add) as Hga; [|unfold tr; by rewrite Hga]. unfold add0, add. rewrite ?Ecc. destruct co eqn:Eco.
        - cbn [orb andb]. destruct cr eqn:Ecr; [done|]. cbn [negb andb]. destruct emp eqn:Eemp; [|done]. cbn [negb]. rewrite Hg.
          destruct (Hlast eq_refl) as [K1|K1]; [unfold emp in Eemp; by destruct (l1 ++ l2)|by rewrite K1 in Hu|by rewrite K1].
        - destruct ce; done. }
      eapply eff_ext; [exact K|..]; intros d f; unfold childE, childI; destruct (name_eqb d n); try done; destruct (under m n d f) eqn:Eu; try done; by rewrite Htr.
    - exists s2. split; [done|]. apply orb_false_iff in Ecc as [Ece Eco]. assert (add = []) as -> by (unfold add; by rewrite ?Ece, ?Eco). assert (rem = []) as -> by (unfold rem; by rewrite Ece). by apply eff_at_child. }
  assert (Hfit : fit m n (l1 ++ l2) add rem).
  { intros f old' new. unfold old', new, passes. rewrite Hr, Hce, Hci. fold cr. unfold add, rem.
    destruct (N.eqb_spec (r_face r) f) as [E|E].
    - subst f. rewrite Hcir. cbn [orelse]. destruct ce eqn:Ece; cbn [orb orelse].
      + destruct cr eqn:Ecr; cbn [orb]; [rewrite rs_get_one, Hk1, N.eqb_refl; done|]. rewrite Hg, rs_get_one, Hk1, N.eqb_refl. by destruct (anc (rho_of m) n (r_face r)).
      + destruct co eqn:Eco; cbn [orb]; [|done]. destruct cr; [done|]. rewrite Hg. by destruct (anc (rho_of m) n (r_face r)).
    - assert (rs_get f (if ce then [old] else []) = None) as ->. { destruct ce; [|done]. rewrite rs_get_one, Hk1. by rewrite (proj2 (N.eqb_neq _ _) E). }
      destruct (ce || co) eqn:Ecc; [|apply orb_false_iff in Ecc as [_ ->]; done]. destruct cr eqn:Ecr; [by rewrite orb_true_r|]. rewrite Hg.
      assert (Hsh : List.find (on_ci f) (re_routes e) <> None -> anc (rho_of m) n f = None).
      { intros K. apply Hsafe; [by apply orb_true_iff in Ecc|done|congruence|]. unfold ci. by rewrite Hr. }
      destruct (List.find (on_ci f) (re_routes e)) as [x|]; [by rewrite Hsh|]. cbn [orelse]. destruct (anc (rho_of m) n f); [done|]. by destruct co. }
  assert (Hm3 : match ce with true => match co with true => modify_children m (re_children e) (if (co || cr) && negb cr && negb emp then al else []) [old] (add_inherited_routes n t (if (co || cr) && negb cr && negb emp then al else []) s1)
                                         | false => modify_children m (re_children e) (if cr then [] else al) [old] s1 end
                            | false => match co with true => modify_children m (re_children e) (if (co || cr) && negb cr && negb emp then al else []) [] (add_inherited_routes n t (if (co || cr) && negb cr && negb emp then al else []) s1)
                                         | false => Some s1 end end = Some s3).
  { rewrite <-E3. unfold s2, add0, rem. destruct ce, co; reflexivity. }
  rewrite Hm3. cbn [obind].
  assert (N3 : forall In : N -> option bool, (forall f, List.find (fun x => r_face x =? f)%N (l1 ++ l2) <> None -> In f = None) -> forall f x, List.find (fun x => r_face x =? f)%N (l1 ++ l2) = Some x -> child_inherit x = false -> get_or (In f) (inhb m n f) = false).
  { intros In HIn f x Ho Hc. rewrite HIn by congruence. rewrite Hown in Ho. destruct (N.eqb_spec (r_face r) f) as [E|E]; [done|]. simpl.
    eapply (tm_own m Hm); [|exact Hc]. unfold own. by rewrite Hr. }
  destruct emp eqn:Eemp.
  - (* the last route *)
    assert (Elast : l1 ++ l2 = []) by (unfold emp in Eemp; by destruct (l1 ++ l2)).
    assert (length (re_routes e) = 1)%nat as Hlen. { rewrite Hl, app_length. apply (f_equal length) in Elast. rewrite app_length in Elast. simpl in *. lia. }
    assert (Ecr : cr = false) by (unfold cr; by rewrite Elast).
    cbn [negb]. rewrite andb_false_r, Hlen. simpl.
    eexists. split; [done|]. unfold for_erased_entry.
    assert (Hf3 : u_face s3 = r_face r) by (by destruct H3 as (_ & -> & _)).
    pose proof (erased_entry_ok n (re_inherited e) s3 _ _ ltac:(rewrite Hf3; exact H3) ltac:(apply H3)) as H4.
    eexists add, rem, _, _. split; [exact (eff_child_at _ _ _ _ _ _ _ _ _ _ _ H3 H4)|]. split; [done|].
    assert (Hea : forall f, Ea1 f = None) by (intros f; unfold Ea1; by rewrite andb_false_r).
    assert (Hia : forall f, Ia1 f = None) by (intros f; unfold Ia1; by rewrite andb_false_r).
    rewrite Elast in *. split.
    { intros f. rewrite (want_reg m n e f Hm He), want_upd, Hce, Hea. specialize (Hown f). simpl in Hown. simpl. unfold Eo, one. rewrite (N.eqb_sym f).
      assert (existsb (fun x => r_face x =? f)%N (re_inherited e) = inhb m n f) as -> by (unfold inhb; by rewrite He). destruct (inhb m n f) eqn:Ei; simpl; [done|].
      destruct (r_face r =? f)%N; simpl; [done|]. rewrite <-Hown. rewrite Ecr, orb_false_r. destruct co eqn:Eco; [done|]. destruct (anc (rho_of m) n f) eqn:Ex; [|done]. exfalso.
      assert (inhb m n f = true); [|congruence]. apply (tm_inh m Hm); [by eexists|unfold own; by rewrite Hr|by rewrite Hr, Hce, Ecr|congruence]. }
    split; [done|]. split; [done|]. intros _ f. simpl. unfold nothing. by rewrite Hia.
  - assert (exists z k, l1 ++ l2 = z :: k) as (z & k & Ezk) by (unfold emp in Eemp; destruct (l1 ++ l2) as [|z k]; [done|by exists z, k]).
    assert (Hlen : (length (re_routes e) =? 1)%nat = false). { apply Nat.eqb_neq. rewrite Hl, app_length. apply (f_equal length) in Ezk. rewrite app_length in Ezk. simpl in *. lia. }
    cbn [negb]. rewrite andb_true_r, Hlen.
    set (En f := if negb cr then match anc (rho_of m) n (r_face r) with Some x => one (r_face r) (Some (r_cost x)) f | None => None end else None : option (option N)).
    set (In f := if negb cr then match anc (rho_of m) n (r_face r) with Some x => one (r_face r) true f | None => None end else None : option bool).
    set (s4 := if negb cr then match anc (rho_of m) n (r_face r) with Some x0 => add_fib_update (add_update n (r_face x0) (r_cost x0)) (inherit true n x0 s3) | None => s3 end else s3).
    assert (H4 : eff s3 s4 (at_ n En) (at_ n In)).
    { unfold s4, En, In. destruct (negb cr); [|apply eff_at_none; apply H3]. destruct (anc (rho_of m) n (r_face r)) as [y|] eqn:Ey; [|apply eff_at_none; apply H3].
      pose proof (eff_at_inherit true n y s3 ltac:(apply H3)) as K1.
      pose proof (eff_at_add n (add_update n (r_face y) (r_cost y)) _ ltac:(apply K1) eq_refl) as K2. apply anc_face in Ey.
      eapply eff_ext; [exact (eff_at_trans _ _ _ _ _ _ _ _ K1 K2)|..]; intros d f; unfold at_; destruct (name_eqb d n); try done; cbn [fu_face add_update]; rewrite Ey; unfold nothing; [apply over_none|done]. }
    exists s4. split; [done|].
    eexists add, rem, _, _. split; [exact (eff_child_at _ _ _ _ _ _ _ _ _ _ _ H3 H4)|]. split; [done|]. split.
    { intros f. rewrite (want_reg m n e f Hm He), want_upd, Hce. fold cr. rewrite Ezk, <-Ezk. unfold Ea1, En, Eo, one. rewrite Hhf, Hown, (N.eqb_sym f).
      assert (negb false = true) as -> by done. rewrite andb_true_r.
      destruct (N.eqb_spec (r_face r) f) as [E|E].
      - rewrite <-E in *. cbn [isSome negb andb]. rewrite andb_true_r. destruct cr eqn:Ecr; cbn [negb andb over get_or effect]; [by rewrite andb_false_r|].
        destruct (anc (rho_of m) n (r_face r)) as [y|]; cbn [over get_or option_map]; [done|]. by destruct (co && true).
      - clear. clearbody co cr. destruct (List.find _ (re_routes e)), co, cr, (anc (rho_of m) n f), (anc (rho_of m) n (r_face r)); done. }
    assert (HIn : forall f, f <> r_face r -> In f = None) by (intros f Hne; unfold In, one; rewrite (proj2 (N.eqb_neq _ _) Hne); destruct (negb cr); [|done]; by destruct (anc (rho_of m) n (r_face r))).
    split.
    { intros _ Hcf f Ho Ha. fold cr in Hcf. pose proof Ho as Ho'. rewrite Hown in Ho. destruct (N.eqb_spec (r_face r) f) as [E|E].
      - unfold In, one. rewrite <-E in *. rewrite Hcf, N.eqb_refl. cbn [negb]. by destruct (anc (rho_of m) n (r_face r)).
      - rewrite HIn by congruence. cbn [over]. unfold Ia1. rewrite Hhf, Ho', Hcf. cbn [isSome negb]. rewrite !andb_true_r. destruct co eqn:Eco; [by destruct (anc (rho_of m) n f)|]. simpl.
        apply (tm_inh m Hm); [by eexists|unfold own; by rewrite Hr|by rewrite Hr, Hce, Hcf|done]. }
    split; [|by rewrite Ezk].
    apply N3. intros f Hne. destruct (decide (f = r_face r)) as [->|Hf]; [exfalso; apply Hne; by rewrite Hown, N.eqb_refl|]. rewrite HIn by done. cbn [over]. unfold Ia1, nothing. rewrite Hhf.
    destruct (List.find _ (l1 ++ l2)); [|done]. cbn [isSome negb]. by rewrite andb_false_r.
Qed.
