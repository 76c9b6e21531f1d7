(** The effect of a traversal of the entries below a prefix. *)
From stdpp Require Import gmap.
From Verif Require Import Lib Name_Model Name_Proof Tab_Model Rib_Model Rib_Spec RibFib_Model RibFib_Spec Rib_Tree Rib_Hier Rib_Inv RibFib_Look RibFib_Anc.

Definition over {A} (x y : option A) : option A := match x with Some _ => x | None => y end.
Lemma over_assoc {A} (x y z : option A) : over x (over y z) = over (over x y) z.
Proof. by destruct x. Qed.
Lemma over_none {A} (x : option A) : over x None = x.
Proof. by destruct x. Qed.
Definition is_added (x : option (option N)) : option bool := option_map isSome x.
Lemma is_added_over x y : is_added (over x y) = over (is_added x) (is_added y).
Proof. by destruct x. Qed.

Lemma fold_left_ext {A B} (g h : A -> B -> A) (l : list B) (s : A) : (forall acc x, g acc x = h acc x) -> fold_left g l s = fold_left h l s.
Proof. intros H. revert s. induction l as [|x l IH]; intros s; simpl; [done|]. by rewrite H. Qed.

(** [s'] is [s] after updates with the effect [E] on the FIB and [I] on the inherited routes *)
Definition eff (s s' : upd) (E : name -> N -> option (option N)) (I : name -> N -> option bool) : Prop :=
  upd_ok s' /\ u_face s' = u_face s /\ (forall d f, look s' d f = over (E d f) (look s d f)) /\ (forall d f, ilook s' d f = over (I d f) (ilook s d f)) /\
  (forall d, (forall f, I d f = None) -> (exists a r, (a, d, r) ∈ u_inh s') -> exists a r, (a, d, r) ∈ u_inh s).
Lemma eff_refl s : upd_ok s -> eff s s (fun _ _ => None) (fun _ _ => None).
Proof. done. Qed.
Lemma eff_trans s1 s2 s3 E1 I1 E2 I2 : eff s1 s2 E1 I1 -> eff s2 s3 E2 I2 -> eff s1 s3 (fun d f => over (E2 d f) (E1 d f)) (fun d f => over (I2 d f) (I1 d f)).
Proof.
  intros (A1 & B1 & C1 & D1 & F1) (A2 & B2 & C2 & D2 & F2). split; [done|]. split; [congruence|]. split; [intros d f; by rewrite C2, C1, over_assoc|].
  split; [intros d f; by rewrite D2, D1, over_assoc|]. intros d Hd Hin. apply F1; [|apply F2; [|done]].
  - intros f. specialize (Hd f). by destruct (I2 d f).
  - intros f. specialize (Hd f). by destruct (I2 d f).
Qed.
Lemma eff_ext s s' E I E' I' : eff s s' E I -> (forall d f, E d f = E' d f) -> (forall d f, I d f = I' d f) -> eff s s' E' I'.
Proof.
  intros (A & B & C & D & F) HE HI. split; [done|]. split; [done|]. split; [intros; by rewrite C, HE|]. split; [intros; by rewrite D, HI|].
  intros d Hd. apply F. intros f. by rewrite HI.
Qed.
Lemma eff_add u s : upd_ok s -> eff s (add_fib_update u s) (fun d f => if is_at d f u then Some (effect u) else None) (fun _ _ => None).
Proof.
  intros H. split; [by apply add_fib_update_ok|]. split; [apply u_face_add|]. split; [intros d f; rewrite look_add; by destruct (is_at d f u)|].
  split; [intros; by rewrite ilook_add|]. intros d _. by rewrite u_inh_add.
Qed.
Lemma eff_inherit a n r s : upd_ok s -> eff s (inherit a n r s) (fun _ _ => None) (fun d f => if name_eqb d n && (f =? r_face r)%N then Some a else None).
Proof.
  intros H. split; [by apply inherit_ok|]. split; [done|]. split; [done|]. split; [intros d f; rewrite ilook_inherit; by destruct (_ && _)|].
  intros d Hd (a' & r' & Hin). simpl in Hin. apply elem_of_app in Hin as [Hin|Hin]; [by eauto|]. apply elem_of_list_singleton in Hin as [= -> -> ->].
  specialize (Hd (r_face r)). by rewrite name_eqb_refl, N.eqb_refl in Hd.
Qed.

(** ** A loop over routes at one entry *)
Definition upd_of (a : bool) (n : name) (r : route) : fib_update := if a then add_update n (r_face r) (r_cost r) else remove_update n (r_face r).
Definition loopE (a : bool) (n : name) (q : N -> bool) (l : list route) (d : name) (f : N) : option (option N) :=
  if name_eqb d n && q f then option_map (fun r => effect (upd_of a n r)) (rs_get f l) else None.
Lemma loop_ok a n (q : N -> bool) l s :
  rs_sorted l -> upd_ok s ->
  eff s (fold_left (fun s r => if q (r_face r) then add_fib_update (upd_of a n r) (inherit a n r s) else s) l s) (loopE a n q l) (fun d f => is_added (loopE a n q l d f)).
Proof.
  revert s. induction l as [|r l IH]; intros s Hs Ho.
  { eapply eff_ext; [by apply eff_refl|..]; intros d f; unfold loopE; simpl; by destruct (_ && _). }
  destruct Hs as [Hf Hs]. simpl. set (s1 := if q (r_face r) then _ else _).
  assert (Hab : forall f, r_face r = f -> rs_get f l = None) by (intros f <-; by apply rs_get_above).
  assert (H1 : eff s s1 (loopE a n q [r]) (fun d f => is_added (loopE a n q [r] d f))).
  { unfold s1. destruct (q (r_face r)) eqn:Eq.
    - eapply eff_ext; [eapply eff_trans; [by apply eff_inherit|apply eff_add; by apply inherit_ok]|..]; intros d f; simpl.
      + rewrite over_none. unfold loopE, is_at. simpl. replace (fu_name (upd_of a n r)) with n by (by destruct a). replace (fu_face (upd_of a n r)) with (r_face r) by (by destruct a).
        destruct (name_eqb d n); simpl; [|done]. rewrite (N.eqb_sym f). destruct (N.eqb_spec (r_face r) f) as [<-|E]; [by rewrite Eq|by destruct (q f)].
      + unfold loopE. destruct (name_eqb d n); simpl; [|done]. rewrite (N.eqb_sym f).
        destruct (N.eqb_spec (r_face r) f) as [<-|E]; [rewrite Eq; by destruct a|by destruct (q f)].
    - eapply eff_ext; [by apply eff_refl|..]; intros d f; unfold loopE; simpl; destruct (name_eqb d n); simpl; try done;
        (destruct (N.eqb_spec (r_face r) f) as [<-|E]; [by rewrite Eq|by destruct (q f)]). }
  assert (HE : forall d f, over (loopE a n q l d f) (loopE a n q [r] d f) = loopE a n q (r :: l) d f).
  { intros d f. unfold loopE, rs_get. simpl. destruct (name_eqb d n && q f); [|done]. destruct (N.eqb_spec (r_face r) f) as [E|E].
    - specialize (Hab f E). unfold rs_get in Hab. by rewrite Hab.
    - simpl. by rewrite over_none. }
  eapply eff_ext; [eapply eff_trans; [exact H1|apply IH; [done|apply H1]]|..]; intros d f; simpl.
  - apply HE.
  - by rewrite <-is_added_over, HE.
Qed.
Lemma add_inherited_routes_ok n e l s : rs_sorted l -> upd_ok s ->
  let E := loopE true n (fun f => negb (has_face f e)) l in eff s (add_inherited_routes n e l s) E (fun d f => is_added (E d f)).
Proof.
  intros Hs Ho E. pose proof (loop_ok true n (fun f => negb (has_face f e)) l s Hs Ho) as H. unfold add_inherited_routes.
  erewrite (fold_left_ext _ _ l s); [exact H|]. intros acc r. simpl. by destruct (has_face (r_face r) e).
Qed.
Lemma add_inherited_but_ok n l r s : rs_sorted l -> upd_ok s ->
  let E := loopE true n (fun f => negb (f =? r_face r)%N) l in eff s (add_inherited_but n l r s) E (fun d f => is_added (E d f)).
Proof.
  intros Hs Ho E. pose proof (loop_ok true n (fun f => negb (f =? r_face r)%N) l s Hs Ho) as H. unfold add_inherited_but.
  erewrite (fold_left_ext _ _ l s); [exact H|]. intros acc x. simpl. by destruct (r_face x =? r_face r)%N.
Qed.
Definition has_inh (f : N) (e : rib_entry) : bool := existsb (fun x => r_face x =? f)%N (re_inherited e).
Lemma remove_inherited_routes_ok n e l s : rs_sorted l -> upd_ok s ->
  let E := loopE false n (fun f => has_inh f e) l in eff s (remove_inherited_routes n e l s) E (fun d f => is_added (E d f)).
Proof. intros Hs Ho E. exact (loop_ok false n (fun f => has_inh f e) l s Hs Ho). Qed.

(** ** The entries a traversal reaches *)
Definition opn (m : rmap) (c d : name) (f : N) : bool :=
  isSome (m !! d) && name_prefixb c d && forallb (fun q => negb (name_prefixb c q && blk (rho_of m) q f)) (d :: proper_prefixes d).
Definition under (m : rmap) (n d : name) (f : N) : bool :=
  isSome (m !! d) && bool_decide (proper_prefix n d) && forallb (fun q => negb (bool_decide (proper_prefix n q) && blk (rho_of m) q f)) (d :: proper_prefixes d).
Lemma isSome_iff {A} (o : option A) : isSome o = true <-> is_Some o.
Proof. destruct o; simpl; split; intros H; [by eexists|done|done|by destruct H]. Qed.
Lemma in_d_prefixes q d : In q (d :: proper_prefixes d) <-> q `prefix_of` d.
Proof.
  simpl. etransitivity; [apply or_iff_compat_l; rewrite <-elem_of_list_In; apply in_proper_prefixes|]. split.
  - intros [<-|[H _]]; done.
  - intros H. destruct (decide (q = d)) as [->|]; [by left|right; done].
Qed.
Lemma opn_spec m c d f : opn m c d f = true <-> is_Some (m !! d) /\ c `prefix_of` d /\ forall q, c `prefix_of` q -> q `prefix_of` d -> blk (rho_of m) q f = false.
Proof.
  unfold opn. rewrite !andb_true_iff, isSome_iff, name_prefixb_prefix, forallb_forall. split.
  - intros [[H1 H2] H3]. split; [done|]. split; [done|]. intros q Hq1 Hq2. specialize (H3 q (proj2 (in_d_prefixes q d) Hq2)).
    apply (name_prefixb_prefix c q) in Hq1. rewrite Hq1 in H3. by destruct (blk (rho_of m) q f).
  - intros (H1 & H2 & H3). split; [done|]. intros q Hq%in_d_prefixes. destruct (name_prefixb c q) eqn:E; [|done]. apply name_prefixb_prefix in E. by rewrite H3.
Qed.
Lemma under_spec m n d f : under m n d f = true <-> is_Some (m !! d) /\ proper_prefix n d /\ forall q, proper_prefix n q -> q `prefix_of` d -> blk (rho_of m) q f = false.
Proof.
  unfold under. rewrite !andb_true_iff, isSome_iff, bool_decide_eq_true, forallb_forall. split.
  - intros [[H1 H2] H3]. split; [done|]. split; [done|]. intros q Hq1 Hq2. specialize (H3 q (proj2 (in_d_prefixes q d) Hq2)).
    rewrite bool_decide_true in H3 by done. by destruct (blk (rho_of m) q f).
  - intros (H1 & H2 & H3). split; [done|]. intros q Hq%in_d_prefixes. destruct (decide (proper_prefix n q)); [|by rewrite bool_decide_false]. by rewrite H3, andb_false_r.
Qed.

(** the effect at an entry that is reached *)
Definition tr (m : rmap) (add rem : list route) (d : name) (f : N) : option (option N) :=
  over (if negb (own_on m d f) then option_map (fun r => Some (r_cost r)) (rs_get f add) else None)
       (if inhb m d f then option_map (fun _ => None) (rs_get f rem) else None).

(** the entries right below [n] *)
Definition tops (m : rmap) (n : name) (l : list name) : Prop :=
  forall c, c ∈ l <-> is_Some (m !! c) /\ proper_prefix n c /\ forall q, proper_prefix n q -> proper_prefix q c -> m !! q = None.
Lemma ci_unreg (m : rmap) q f : m !! q = None -> ci (rho_of m) q f = None.
Proof. intros H. unfold ci, rho_of. by rewrite H. Qed.
Lemma tops_children m n e : hier m -> m !! n = Some e -> tops m n (re_children e).
Proof.
  intros Hh He c. rewrite (h_children m Hh n e c He), find_parent_some. split.
  - intros (Hc & _ & H1 & H2). split; [done|]. split; [done|].
    intros q Hq1 Hq2. destruct (m !! q) eqn:Eq; [|done]. exfalso. eapply (proper_irrefl n), proper_le_prefix; [exact Hq1|]. apply H2; [by eexists|done].
  - intros (Hc & H1 & H2). split; [done|]. split; [by eexists|]. split; [done|].
    intros q [qe Hq] Hqc. destruct (prefix_cases q n c) as [->|[H|H]]; [apply Hqc|apply H1|done|apply H|]. by rewrite (H2 q H Hqc) in Hq.
Qed.
(** the one of them above [d] *)
Lemma tops_of m n l d : tops m n l -> is_Some (m !! d) -> proper_prefix n d -> exists c, c ∈ l /\ c `prefix_of` d.
Proof.
  intros Ht Hd Hp.
  assert (forall k q, length q = k -> is_Some (m !! q) -> proper_prefix n q -> q `prefix_of` d -> exists c, c ∈ l /\ c `prefix_of` d) as K; [|by eapply K].
  clear Hd Hp. intros k. induction k as [k IH] using lt_wf_ind. intros q Hk Hq Hnq Hqd. destruct (decide (q ∈ l)) as [Hin|Hin]; [by eauto|].
  destruct (find_parent m q) as [p|] eqn:Ep.
  - apply find_parent_some in Ep as (H1 & H2 & H3). destruct (decide (proper_prefix n p)) as [Hnp|Hnp].
    + eapply (IH (length p)); [subst k; by apply proper_len|done|done|done|]. etransitivity; [apply H2|done].
    + destruct Hin. apply Ht. split; [done|]. split; [done|]. intros x Hx1 Hx2. destruct (m !! x) eqn:Ex; [|done]. destruct Hnp.
      eapply proper_le_prefix; [exact Hx1|]. apply H3; [by eexists|done].
  - destruct Hin. apply Ht. split; [done|]. split; [done|]. intros x _ Hx2. by apply (proj1 (find_parent_none m q) Ep).
Qed.
Lemma tops_unique m n l c c' d : tops m n l -> c ∈ l -> c' ∈ l -> c `prefix_of` d -> c' `prefix_of` d -> c = c'.
Proof.
  intros Ht Hc Hc' H H'. apply Ht in Hc as ([e He] & Hc1 & Hc2). apply Ht in Hc' as ([e' He'] & Hc1' & Hc2').
  destruct (prefix_cases c c' d H H') as [->|[K|K]]; [done|..].
  - by rewrite (Hc2' c Hc1 K) in He.
  - by rewrite (Hc2 c' Hc1' K) in He'.
Qed.
Lemma tops_opn m n l c d f : tops m n l -> c ∈ l -> c `prefix_of` d -> opn m c d f = under m n d f.
Proof.
  intros Ht Hc Hcd. apply Ht in Hc as ([e He] & Hc1 & Hc2). apply eq_iff_eq_true. rewrite opn_spec, under_spec. split.
  - intros (H1 & _ & H3). split; [done|]. split; [by eapply proper_le_prefix|]. intros q Hq1 Hq2.
    destruct (prefix_cases q c d Hq2 Hcd) as [->|[K|K]]; [by apply H3|apply blk_unreg; by apply Hc2|apply H3; [apply K|done]].
  - intros (H1 & _ & H3). split; [done|]. split; [done|]. intros q Hq1 Hq2. apply H3; [|done]. by eapply proper_le_prefix.
Qed.

(** ** Loops over entries *)
Definition effl (E : name -> name -> N -> option (option N)) (l : list name) (d : name) (f : N) : option (option N) :=
  fold_left (fun acc c => over (E c d f) acc) l None.
Lemma each_eff (F : name -> upd -> option upd) E l s :
  (forall c s, c ∈ l -> upd_ok s -> exists s', F c s = Some s' /\ eff s s' (E c) (fun d f => is_added (E c d f))) -> upd_ok s ->
  exists s', each_of F l s = Some s' /\ eff s s' (effl E l) (fun d f => is_added (effl E l d f)).
Proof.
  induction l as [|c l IH] using rev_ind; intros HF Ho; [by exists s|].
  destruct IH as (s1 & E1 & H1); [intros; apply HF; [set_solver|done]|done|].
  destruct (HF c s1) as (s2 & E2 & H2); [set_solver|apply H1|]. exists s2. rewrite each_of_app, E1. simpl. rewrite E2. split; [done|].
  eapply eff_ext; [eapply eff_trans; [exact H1|exact H2]|..]; intros d f; unfold effl; rewrite fold_left_app; simpl; [done|]. by rewrite is_added_over.
Qed.
Lemma effl_none E l d f : (forall c, c ∈ l -> E c d f = None) -> effl E l d f = None.
Proof.
  induction l as [|c l IH] using rev_ind; intros H; [done|]. unfold effl. rewrite fold_left_app. simpl. rewrite H by set_solver. simpl. apply IH. intros; apply H; set_solver.
Qed.
Lemma effl_one E l c d f : c ∈ l -> (forall c', c' ∈ l -> c' <> c -> E c' d f = None) -> effl E l d f = E c d f.
Proof.
  induction l as [|x l IH] using rev_ind; intros Hc H; [by apply elem_of_nil in Hc|]. unfold effl. rewrite fold_left_app. simpl.
  change (fold_left _ l None) with (effl E l d f). destruct (decide (x = c)) as [->|Hx].
  - destruct (decide (c ∈ l)) as [Hin|Hin].
    + rewrite IH; [by destruct (E c d f)|done|]. intros; apply H; set_solver.
    + rewrite effl_none; [apply over_none|]. intros y Hy. apply H; set_solver.
  - rewrite H by set_solver. simpl. apply IH; [set_solver|]. intros; apply H; set_solver.
Qed.
Definition reach (m : rmap) (add rem : list route) (c d : name) (f : N) : option (option N) := if opn m c d f then tr m add rem d f else None.
Lemma effl_tops m n l add rem d f : tops m n l -> effl (reach m add rem) l d f = if under m n d f then tr m add rem d f else None.
Proof.
  intros Ht. destruct (under m n d f) eqn:Eu.
  - apply under_spec in Eu as K. destruct K as (K1 & K2 & _). destruct (tops_of _ _ _ _ Ht K1 K2) as (c & Hc & Hcd).
    rewrite (effl_one _ l c); [|done|].
    + unfold reach. rewrite (tops_opn m n l) by done. by rewrite Eu.
    + intros c' Hc' Hne. unfold reach. destruct (opn m c' d f) eqn:Eo; [|done]. apply opn_spec in Eo as (_ & Ho & _). destruct Hne. by eapply tops_unique.
  - apply effl_none. intros c Hc. unfold reach. destruct (opn m c d f) eqn:Eo; [|done]. apply opn_spec in Eo as K. destruct K as (_ & Ho & _).
    rewrite (tops_opn m n l) in Eo by done. congruence.
Qed.

Definition nsub (m : rmap) (c : name) : nat := length (List.filter (name_prefixb c) (rib_names m)).
Lemma nsub_child (m : rmap) c c' : is_Some (m !! c) -> proper_prefix c c' -> (nsub m c' < nsub m c)%nat.
Proof.
  intros Hc Hp. unfold nsub. change (length (c :: List.filter (name_prefixb c') (rib_names m)) <= length (List.filter (name_prefixb c) (rib_names m)))%nat.
  apply NoDup_incl_length.
  - constructor.
    + intros [_ H]%filter_In. apply name_prefixb_prefix in H. by eapply (proper_irrefl c), proper_le_prefix.
    + apply List.NoDup_filter, NoDup_ListNoDup, rib_names_nodup.
  - intros q [<-|Hq]; apply filter_In.
    + split; [by apply elem_of_list_In, rib_names_in|]. by apply name_prefixb_prefix.
    + apply filter_In in Hq as [H1 H2]. split; [done|]. apply name_prefixb_prefix in H2. apply name_prefixb_prefix. etransitivity; [apply Hp|done].
Qed.
Lemma nsub_size (m : rmap) c : (nsub m c <= size m)%nat.
Proof. unfold nsub. rewrite <-rib_names_length. induction (rib_names m) as [|x l IH]; simpl; [lia|]. destruct (name_prefixb c x); simpl; lia. Qed.

Lemma has_face_own (m : rmap) n e f : m !! n = Some e -> has_face f e = own_on m n f.
Proof. intros He. unfold has_face, own_on, own, rho_of. rewrite He. apply find_existsb. Qed.
Lemma ci_on_ci (m : rmap) n e f : m !! n = Some e -> child_inherit_on f e = isSome (ci (rho_of m) n f).
Proof. intros He. unfold child_inherit_on, ci, rho_of. rewrite He. apply find_existsb. Qed.
Lemma tr_keep m e add rem d f :
  tr m (List.filter (fun r => negb (child_inherit_on (r_face r) e)) add) (List.filter (fun r => negb (child_inherit_on (r_face r) e)) rem) d f =
  if child_inherit_on f e then None else tr m add rem d f.
Proof. unfold tr. rewrite !keep_get. destruct (child_inherit_on f e); [|done]. simpl. destruct (negb _), (inhb m d f); done. Qed.
Lemma traverse_ok (m : rmap) fuel add rem c s :
  hier m -> count_ok m -> rs_sorted add -> rs_sorted rem -> is_Some (m !! c) -> (nsub m c <= fuel)%nat -> upd_ok s ->
  exists s', traverse fuel m add rem c s = Some s' /\ eff s s' (reach m add rem c) (fun d f => is_added (reach m add rem c d f)).
Proof.
  intros Hh Hnc. revert add rem c s. induction fuel as [|fuel IH]; intros add rem c s Ha Hr [e He] Hn Ho.
  { exfalso. unfold nsub in Hn. assert (c ∈ List.filter (name_prefixb c) (rib_names m)) as K.
    { apply elem_of_list_In, filter_In. split; [apply elem_of_list_In, rib_names_in; by eexists|by apply name_prefixb_prefix]. }
    destruct (List.filter (name_prefixb c) (rib_names m)); [by apply elem_of_nil in K|simpl in Hn; lia]. }
  simpl. rewrite He, (Hnc c e He).
  assert (Hblk : forall f, blk (rho_of m) c f = isSome (ci (rho_of m) c f) || captures (re_routes e)) by (intros f; unfold blk; unfold rho_of at 2; by rewrite He).
  destruct (captures (re_routes e)) eqn:Ecap.
  { exists s. split; [done|]. assert (Hno : forall d f, reach m add rem c d f = None).
    { intros d f. unfold reach. destruct (opn m c d f) eqn:Eo; [|done]. apply opn_spec in Eo as (_ & K1 & K2). specialize (K2 c ltac:(done) K1). rewrite Hblk, orb_true_r in K2. done. }
    eapply eff_ext; [by apply eff_refl|..]; intros d f; simpl; by rewrite Hno. }
  assert (Hblk' : forall f, blk (rho_of m) c f = isSome (ci (rho_of m) c f)) by (intros f; by rewrite Hblk, orb_false_r).
  set (keep l := List.filter (fun r => negb (child_inherit_on (r_face r) e)) l).
  assert (Ha' : rs_sorted (keep add)) by (by apply rs_filter_sorted). assert (Hr' : rs_sorted (keep rem)) by (by apply rs_filter_sorted).
  pose proof (remove_inherited_routes_ok c e (keep rem) s Hr' Ho) as H1. simpl in H1. set (s1 := remove_inherited_routes c e (keep rem) s) in H1.
  pose proof (add_inherited_routes_ok c e (keep add) s1 Ha' ltac:(apply H1)) as H2. simpl in H2. set (s2 := add_inherited_routes c e (keep add) s1) in H2.
  destruct (each_eff (traverse fuel m (keep add) (keep rem)) (reach m (keep add) (keep rem)) (re_children e) s2) as (s3 & E3 & H3).
  { intros c' s' Hc' Ho'. pose proof (tops_children m c e Hh He) as Ht. apply Ht in Hc' as (Hc1 & Hc2 & _).
    apply IH; try done. pose proof (nsub_child m c c' ltac:(by eexists) Hc2). lia. }
  { apply H2. }
  exists s3. split; [exact E3|].
  assert (HE : forall d f, over (effl (reach m (keep add) (keep rem)) (re_children e) d f) (over (loopE true c (fun f => negb (has_face f e)) (keep add) d f) (loopE false c (fun f => has_inh f e) (keep rem) d f)) = reach m add rem c d f).
  { intros d f. rewrite (effl_tops m c) by (by apply tops_children). unfold keep. rewrite tr_keep. unfold loopE. rewrite !keep_get, (has_face_own m c e f He), (ci_on_ci m c e f He).
    unfold reach. destruct (name_eqb d c) eqn:Edc.
    - apply name_eqb_eq in Edc as ->. assert (under m c c f = false) as ->.
      { apply not_true_iff_false. intros (_ & K & _)%under_spec. by apply proper_irrefl in K. }
      assert (opn m c c f = negb (isSome (ci (rho_of m) c f))) as ->.
      { apply eq_iff_eq_true. rewrite opn_spec. split.
        - intros (_ & _ & K). by rewrite <-Hblk', (K c).
        - intros K. split; [by eexists|]. split; [done|]. intros q Hq1 Hq2. assert (q = c) as ->.
          { destruct (prefix_cases q c c Hq2) as [->|[L|L]]; [done|done|..]; exfalso; eapply (proper_irrefl c); [by eapply prefix_le_proper|by eapply proper_le_prefix]. }
          rewrite Hblk'. by destruct (ci (rho_of m) c f). }
      unfold tr. simpl. assert (has_inh f e = inhb m c f) as -> by (unfold inhb; by rewrite He).
      destruct (isSome (ci (rho_of m) c f)); simpl; [by destruct (negb _), (inhb m c f)|].
      done.
    - simpl. rewrite over_none. apply name_eqb_neq in Edc.
      assert (opn m c d f = under m c d f && negb (isSome (ci (rho_of m) c f))) as ->.
      { apply eq_iff_eq_true. rewrite andb_true_iff, opn_spec, under_spec. split.
        - intros (K1 & K2 & K3). split; [|by rewrite <-Hblk', K3]. split; [done|]. split; [done|]. intros q Hq1 Hq2. apply K3; [apply Hq1|done].
        - intros ((K1 & K2 & K3) & K4). split; [done|]. split; [apply K2|]. intros q Hq1 Hq2. destruct (decide (q = c)) as [->|Hne]; [rewrite Hblk'; by destruct (ci (rho_of m) c f)|].
          apply K3; done. }
      destruct (under m c d f), (isSome (ci (rho_of m) c f)); done. }
  eapply eff_ext; [eapply eff_trans; [eapply eff_trans; [exact H1|exact H2]|exact H3]|..]; intros d f; simpl; [apply HE|].
  by rewrite <-!is_added_over, HE.
Qed.
Lemma modify_children_ok (m : rmap) n l add rem s :
  hier m -> count_ok m -> rs_sorted add -> rs_sorted rem -> tops m n l -> upd_ok s ->
  let E d f := if under m n d f then tr m add rem d f else None in
  exists s', modify_children m l add rem s = Some s' /\ eff s s' E (fun d f => is_added (E d f)).
Proof.
  intros Hh Hnc Ha Hr Ht Ho E.
  destruct (each_eff (traverse (S (size m)) m add rem) (reach m add rem) l s) as (s' & E' & H).
  { intros c s0 Hc Ho0. apply Ht in Hc as (Hc & _). apply traverse_ok; try done. pose proof (nsub_size m c). lia. }
  { done. }
  exists s'. split; [done|]. eapply eff_ext; [exact H|..]; intros d f; simpl; by rewrite (effl_tops m n).
Qed.
