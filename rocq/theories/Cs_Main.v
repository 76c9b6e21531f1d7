(** The facts behind the content-store properties, at the level of the table. *)
From Verif Require Import Lib Name_Model Name_Spec Name_Proof Packet_Model Cs_Model Cs_Spec Cs_Proof Cs_Refine Cs_Find Cs_Run Cs_Lru.

Lemma reach_R limit s : reach limit s -> exists a, R s a /\ fits a.
Proof.
  intros (ops & rs & Hrun).
  destruct (cs_run_weak (cs_init limit) (acs_init limit) ops) as (s' & rs' & a & Hrun' & HR & Hf & _).
  { apply R_init. } { unfold fits. simpl. lia. }
  rewrite Hrun in Hrun'. injection Hrun' as <- <-. eauto.
Qed.
Lemma reach_wf_reach limit s : reach_wf limit s -> reach limit s.
Proof. intros (ops & rs & _ & H). by exists ops, rs. Qed.
Lemma reach_wf_R limit s : reach_wf limit s -> exists a, R s a /\ fits a /\ wf_items a.
Proof.
  intros (ops & rs & Hwf & Hrun).
  destruct (cs_run_R (cs_init limit) (acs_init limit) ops) as (s' & rs' & a & Hrun' & _ & HR & Hw);
    [apply R_init|constructor|done|].
  rewrite Hrun in Hrun'. injection Hrun' as <- <-.
  destruct (reach_R limit s) as (a' & HR' & Hf'); [by exists ops, rs|].
  exists a. split; [done|]. split; [|done]. unfold fits in *.
  rewrite <-(R_limit _ _ HR'), (R_limit _ _ HR) in Hf'.
  pose proof (Permutation_length (R_items _ _ HR)) as H1.
  pose proof (Permutation_length (R_items _ _ HR')) as H2. rewrite fmap_length in *. lia.
Qed.

Lemma cs_size_bound limit ops : exists s rs,
  cs_run (cs_init limit) ops = Some (s, rs) /\
  cs_limit s = foldl new_limit limit ops /\
  (N.of_nat (length (cs_table s)) <= cs_limit s)%N.
Proof.
  destruct (cs_run_weak (cs_init limit) (acs_init limit) ops) as (s & rs & a & Hrun & HR & Hf & Hl).
  { apply R_init. } { unfold fits. simpl. lia. }
  exists s, rs. split; [done|]. rewrite (R_limit _ _ HR). split; [done|].
  unfold fits in Hf. pose proof (Permutation_length (R_items _ _ HR)) as H1.
  rewrite fmap_length in H1. lia.
Qed.

Lemma entry_satisfies_strip now i it : entry_satisfies now i (strip it) <-> item_satisfies now i it.
Proof. done. Qed.

Lemma cs_find_table now i s s' r : cs_find now i s = Some (s', r) ->
  cs_table s' = cs_table s /\ cs_limit s' = cs_limit s /\ cs_admit s' = cs_admit s /\ cs_serve s' = cs_serve s.
Proof.
  unfold cs_find, before_use. destruct (_ || _); [naive_solver|].
  destruct (List.find _ _); [|naive_solver]. destruct (cs_policy s).
  - destruct (lru_insert_to_queue _ _ _); [|done]. naive_solver.
  - destruct (info_get _ _); [|done]. naive_solver.
Qed.

Lemma cs_find_main limit now i s : reach_wf limit s -> exists s' r,
  cs_find now i s = Some (s', r) /\ cs_table s' = cs_table s /\
  match r with
  | Some d => cs_serve s = true /\ (0 < cs_limit s)%N /\
      exists e, e ∈ cs_table s /\ e_data e = d /\ entry_satisfies now i e /\
        forall e', e' ∈ cs_table s -> entry_satisfies now i e' ->
          same_packet d (e_data e') \/ data_before d (e_data e')
  | None => cs_serve s = false \/ cs_limit s = 0%N \/
      forall e, e ∈ cs_table s -> ~ entry_satisfies now i e
  end.
Proof.
  intros (a & HR & _ & Hwf)%reach_wf_R.
  destruct (cs_find_R now i s a HR Hwf) as (s' & a' & r & Hfind & Ha & HR' & _).
  exists s', r. split; [done|]. split; [exact (proj1 (cs_find_table _ _ _ _ _ Hfind))|].
  rewrite (R_serve _ _ HR), (R_limit _ _ HR).
  assert (forall it, first_satisfying now i (a_items a) it ->
    exists e, e ∈ cs_table s /\ e_data e = it_data it /\ entry_satisfies now i e /\
        forall e', e' ∈ cs_table s -> entry_satisfies now i e' ->
          same_packet (it_data it) (e_data e') \/ data_before (it_data it) (e_data e')) as Hfs.
  { intros it (Hin & Hsat & Hfirst). exists (strip it). split; [by eapply table_items_elem|].
    split; [done|]. split; [done|]. intros e' He' Hs'.
    destruct (table_entry_item _ _ _ HR He') as (it' & Hit' & ->). by apply Hfirst. }
  inversion Ha; subst; try naive_solver.
  right. right. intros e He Hs. destruct (table_entry_item _ _ _ HR He) as (it' & Hit' & ->).
  naive_solver.
Qed.

Lemma can_satisfy_entry now i e : can_satisfy now i e = true <-> entry_satisfies now i e.
Proof.
  destruct e as [d u f]. change (can_satisfy now i (strip (Item d u f Regular)) = true <->
    entry_satisfies now i (strip (Item d u f Regular))). apply can_satisfy_spec.
Qed.

Lemma cs_find_sound_main limit now i s s' d : reach limit s -> cs_find now i s = Some (s', Some d) ->
  exists e, e ∈ cs_table s /\ e_data e = d /\ entry_satisfies now i e.
Proof.
  intros _ (e & He & -> & Hs)%cs_find_sound. exists e. split; [done|]. split; [done|].
  by apply can_satisfy_entry.
Qed.

(** * Insertion *)
Lemma cs_insert_refused now d u s :
  cs_admit s = false \/ cs_limit s = 0%N \/ d_nocache d = true -> cs_insert now d u s = Some s.
Proof.
  unfold cs_insert. intros [H|[H|H]].
  - by rewrite H.
  - rewrite H. by rewrite orb_true_r.
  - rewrite H. by destruct (_ || _).
Qed.

Lemma items_same_packet s a it it' : R s a -> it ∈ a_items a -> it' ∈ a_items a ->
  same_packet (it_data it) (it_data it') -> it = it'.
Proof.
  intros HR H1 H2 H3. apply (nodup_key_inj _ _ _ (R_nodup _ _ HR) H1 H2). by apply same_packet_key.
Qed.

Lemma cs_insert_again limit now d u s e :
  reach limit s -> cs_admit s = true -> (0 < cs_limit s)%N -> d_nocache d = false ->
  e ∈ cs_table s -> same_packet (e_data e) d ->
  exists s', cs_insert now d u s = Some s' /\
    exists rest, cs_table s ≡ₚ e :: rest /\
      cs_table s' ≡ₚ Entry (e_data e) (e_unsol e && u) (fresh_deadline now (e_data e)) :: rest.
Proof.
  intros (a & HR & _)%reach_R Had Hlim Hnc He Hsp.
  destruct (cs_insert_R now d u s a HR) as (s' & a' & Hins & Hi & HR'). exists s'. split; [done|].
  destruct (table_entry_item _ _ _ HR He) as (it & Hit & ->). simpl in *.
  inversion Hi; subst.
  - rewrite <-(R_admit _ _ HR), <-(R_limit _ _ HR) in H. destruct H as [H|[H|H]]; [congruence|lia|congruence].
  - assert (it0 = it) as ->.
    { apply (items_same_packet s a); [done| |done|]; [rewrite H2; mem|].
      eapply same_packet_trans; [done|]. by apply same_packet_sym. }
    exists (strip <$> l1 ++ l2). split.
    + rewrite (R_items _ _ HR), H2. rewrite <-fmap_cons. apply fmap_Permutation.
      by rewrite Permutation_middle.
    + rewrite (R_items _ _ HR'). simpl. rewrite app_assoc, fmap_app. simpl.
      by rewrite <-Permutation_cons_append.
  - exfalso. by apply (H2 it).
Qed.

Lemma evicts_sublist limit l l' : evicts limit l l' -> l' `sublist_of` l.
Proof.
  induction 1 as [|l1 it l2 l' _ _ _ _ IH]; [done|]. etrans; [exact IH|].
  apply sublist_app; [done|]. by apply sublist_cons.
Qed.
Lemma evicts_length limit l l' : evicts limit l l' ->
  N.of_nat (length l') = N.min (N.of_nat (length l)) limit.
Proof.
  induction 1 as [|l1 it l2 l' Hlt _ _ _ IH]; [lia|]. rewrite IH.
  rewrite !app_length in *. simpl in *. lia.
Qed.

Lemma cs_insert_fresh limit now d u s :
  reach limit s -> cs_admit s = true -> (0 < cs_limit s)%N -> d_nocache d = false ->
  ~ cached s d ->
  let new := Entry d u (fresh_deadline now d) in
  exists s', cs_insert now d u s = Some s' /\
    (exists victims, new :: cs_table s ≡ₚ victims ++ cs_table s') /\
    N.of_nat (length (cs_table s')) = N.min (N.of_nat (length (cs_table s)) + 1) (cs_limit s).
Proof.
  intros (a & HR & _)%reach_R Had Hlim Hnc Hnot new.
  destruct (cs_insert_R now d u s a HR) as (s' & a' & Hins & Hi & HR'). exists s'. split; [done|].
  inversion Hi; subst.
  - rewrite <-(R_admit _ _ HR), <-(R_limit _ _ HR) in H. destruct H as [H|[H|H]]; [congruence|lia|congruence].
  - exfalso. apply Hnot. exists (strip it). split; [|done]. eapply table_items_elem; [done|]. rewrite H2. mem.
  - split.
    + pose proof (evicts_sublist _ _ _ H3) as Hsub. apply sublist_submseteq in Hsub.
      apply submseteq_Permutation in Hsub as (k & Hk). exists (strip <$> k).
      rewrite (R_items _ _ HR'), (R_items _ _ HR). simpl. rewrite <-fmap_app.
      rewrite (Permutation_app_comm k), <-Hk. rewrite fmap_app. simpl.
      by rewrite <-Permutation_cons_append.
    + pose proof (evicts_length _ _ _ H3) as Hlen. rewrite app_length in Hlen. simpl in Hlen.
      pose proof (Permutation_length (R_items _ _ HR)) as E1.
      pose proof (Permutation_length (R_items _ _ HR')) as E2. rewrite fmap_length in *.
      rewrite (R_limit _ _ HR). simpl in *. lia.
Qed.

Lemma lru_insert_kept limit now d u s s' :
  reach limit s -> (exists q, cs_policy s = P_lru q) ->
  cs_admit s = true -> (0 < cs_limit s)%N -> d_nocache d = false ->
  cs_insert now d u s = Some s' -> cached s' d.
Proof.
  intros (a & HR & _)%reach_R [q Hq] Had Hlim Hnc Hins0.
  destruct (cs_insert_R now d u s a HR) as (s2 & a' & Hins & Hi & HR').
  rewrite Hins0 in Hins. injection Hins as <-.
  assert (a_kind a = K_lru) as Hk.
  { pose proof (R_policy _ _ HR) as Hp. rewrite Hq in Hp. naive_solver. }
  inversion Hi; subst.
  - rewrite <-(R_admit _ _ HR), <-(R_limit _ _ HR) in H. destruct H as [H|[H|H]]; [congruence|lia|congruence].
  - eexists. split; [eapply table_items_elem; [exact HR'|]; simpl; apply elem_of_app; right; apply elem_of_app; right; left|].
    done.
  - match goal with H : evicts _ (_ ++ [?n]) _ |- _ => set (new := n) in * end.
    assert (l' `suffix_of` a_items a ++ [new]) as Hsuf.
    { eapply evicts_lru; [|done]. rewrite Forall_app, Forall_singleton. split; [by eapply R_regular|].
      unfold new. simpl. by rewrite Hk. }
    assert (l' <> []) as Hne.
    { intros ->. apply evicts_length in H3. rewrite app_length in H3. simpl in H3. lia. }
    destruct (exists_last Hne) as (l & it & ->).
    destruct Hsuf as [p Hsuf]. rewrite app_assoc in Hsuf. apply app_inj_2 in Hsuf as [Hsuf [= <-]]; [|done].
    exists (strip new). split; [|done]. eapply table_items_elem; [exact HR'|]. simpl. mem.
Qed.

(** * Erasure *)
Lemma of_type_sublist ty l k : l `sublist_of` k -> of_type ty l `sublist_of` of_type ty k.
Proof.
  intros Hs. unfold of_type. apply sublist_map.
  induction Hs; [done|..]; rewrite ?filter_cons; repeat case_decide; try done; by constructor.
Qed.

Lemma cs_erase_main limit p n s : reach_wf limit s -> name_valid p -> exists s' m,
  cs_erase p n s = Some (s', m) /\ (m <= n)%N /\
  cs_table s' `sublist_of` cs_table s /\
  (exists victims, cs_table s ≡ₚ victims ++ cs_table s' /\ N.of_nat (length victims) = m /\
     Forall (fun v => under p (e_data v)) victims /\
     forall v e, v ∈ victims -> e ∈ cs_table s' -> under p (e_data e) ->
       data_before (e_data v) (e_data e)) /\
  (m <> n -> forall e, e ∈ cs_table s' -> ~ under p (e_data e)) /\
  Forall2 sublist (queues (cs_policy s')) (queues (cs_policy s)) /\
  cs_limit s' = cs_limit s /\ cs_admit s' = cs_admit s /\ cs_serve s' = cs_serve s.
Proof.
  intros (a & HR & _ & Hwf)%reach_wf_R Hv.
  destruct (cs_erase_R p n s a HR Hwf Hv) as (s' & a' & m & Her & Ha & HR' & Hsubit).
  exists s', m. split; [done|].
  destruct Ha as (vi & ke & Hor & Hvi & Hord & Hall & Hle & (vs & HFv & Hndv & Hlen & Hperm) & Hke & Hsub & Ha').
  split; [done|].
  assert (forall e, e ∈ cs_table s' -> exists it, it ∈ a_items a' /\ it ∈ a_items a /\ ke it /\ e = strip it) as Hent.
  { intros e He. destruct (table_entry_item _ _ _ HR' He) as (it & Hit & ->). exists it.
    rewrite Forall_forall in Hke. auto. }
  split_and!.
  - (* both sorted and included *)
    assert (forall e, e ∈ cs_table s' -> e ∈ cs_table s) as Hincl.
    { intros e He. destruct (Hent e He) as (it & _ & Hit & _ & ->). by eapply table_items_elem. }
    pose proof (R_sorted _ _ HR) as S1. pose proof (R_sorted _ _ HR') as S2.
    clear -Hincl S1 S2. revert Hincl. generalize dependent (cs_table s'). generalize dependent (cs_table s).
    intros t St. induction St as [|e t St IH HF]; intros t' St' Hincl.
    + destruct t' as [|f t']; [done|]. exfalso. specialize (Hincl f). rewrite elem_of_nil in Hincl. apply Hincl. left.
    + destruct St' as [|f t' St' HF']; [apply sublist_nil_l|].
      assert (tbl_lt e e -> False) as Hirr.
      { unfold tbl_lt. by rewrite (cmp_refl key_cmp_ok). }
      assert (f ∈ e :: t) as Hf by (apply Hincl; left).
      apply elem_of_cons in Hf as [->|Hf].
      * apply sublist_skip. apply IH; [done|]. intros g Hg.
        assert (g ∈ e :: t) as Hg' by (apply Hincl; by right).
        apply elem_of_cons in Hg' as [->|?]; [|done]. rewrite Forall_forall in HF'.
        destruct Hirr. by apply HF'.
      * apply sublist_cons. apply IH; [by constructor|]. intros g Hg.
        apply elem_of_cons in Hg as [->|Hg]; [done|].
        assert (g ∈ e :: t) as Hg' by (apply Hincl; by right).
        apply elem_of_cons in Hg' as [->|?]; [|done]. rewrite Forall_forall in HF, HF'.
        destruct Hirr. eapply (cmp_trans key_cmp_ok); [by apply HF|by apply HF'].
  - exists (strip <$> vs). split; [|split; [by rewrite fmap_length|split]].
    + rewrite (R_items _ _ HR), Hperm, fmap_app. by rewrite (R_items _ _ HR').
    + rewrite Forall_fmap. eapply Forall_impl; [exact HFv|]. intros x Hx. by apply Hvi in Hx as (_ & ? & _).
    + intros v e (x & -> & Hx)%elem_of_list_fmap He Hu.
      destruct (Hent e He) as (it & _ & Hit & Hk & ->).
      rewrite Forall_forall in HFv. by apply Hord; auto.
  - intros Hne e He Hu. destruct (Hent e He) as (it & _ & Hit & Hk & ->).
    apply Hne, Hall. exists it. done.
  - pose proof (R_policy _ _ HR) as P1. pose proof (R_policy _ _ HR') as P2.
    rewrite Ha' in P2. simpl in P2.
    destruct (cs_policy s), (cs_policy s'); simpl.
    + destruct P1 as (_ & -> & _), P2 as (_ & -> & _). repeat constructor. by apply sublist_map.
    + naive_solver congruence.
    + naive_solver congruence.
    + destruct P1 as (_ & P1), P2 as (_ & P2). pose proof (pf_R_queue _ _ P1) as Q1. pose proof (pf_R_queue _ _ P2) as Q2.
      repeat constructor.
      * change (sublist (pf_queue Q_UNSOLICITED p1) (pf_queue Q_UNSOLICITED p0)). rewrite Q1, Q2. by apply of_type_sublist.
      * change (sublist (pf_queue Q_STALE p1) (pf_queue Q_STALE p0)). rewrite Q1, Q2. by apply of_type_sublist.
      * change (sublist (pf_queue Q_FIFO p1) (pf_queue Q_FIFO p0)). rewrite Q1, Q2. by apply of_type_sublist.
  - rewrite (R_limit _ _ HR), (R_limit _ _ HR'), Ha'. done.
  - rewrite (R_admit _ _ HR), (R_admit _ _ HR'), Ha'. done.
  - rewrite (R_serve _ _ HR), (R_serve _ _ HR'), Ha'. done.
Qed.

(** * Bookkeeping *)
Lemma of_type_partition items :
  of_type Q_UNSOLICITED items ++ of_type Q_STALE items ++ of_type Q_FIFO items ≡ₚ it_key <$> items.
Proof.
  unfold of_type. induction items as [|it items IH]; [done|]. rewrite !filter_cons.
  rewrite fmap_cons, <-IH. destruct (it_class it) eqn:E; simpl; rewrite ?E; simpl;
    repeat case_decide; try done; simpl.
  - by rewrite <-Permutation_middle.
  - rewrite <-!Permutation_middle. done.
Qed.

Lemma queues_perm limit s : reach limit s ->
  concat (queues (cs_policy s)) ≡ₚ e_key <$> cs_table s /\ NoDup (concat (queues (cs_policy s))).
Proof.
  intros (a & HR & _)%reach_R.
  assert (concat (queues (cs_policy s)) ≡ₚ e_key <$> cs_table s) as Hp.
  { rewrite (tbl_perm_keys _ _ (R_items _ _ HR)). pose proof (R_policy _ _ HR) as P1.
    destruct (cs_policy s); simpl; rewrite app_nil_r.
    - by destruct P1 as (_ & -> & _).
    - destruct P1 as (_ & P1). pose proof (pf_R_queue _ _ P1) as Q1. rewrite <-of_type_partition.
      rewrite <-!Q1. done. }
  split; [done|]. rewrite Hp. apply tbl_sorted_nodup. apply HR.
Qed.

(** * priority_fifo *)
Lemma of_type_ahead ty l1 v l2 w l3 :
  class_qtype (it_class v) = ty -> class_qtype (it_class w) = ty ->
  ahead (it_key v) (it_key w) (of_type ty (l1 ++ v :: l2 ++ w :: l3)).
Proof.
  intros Hv Hw. exists (of_type ty l1), (of_type ty l2), (of_type ty l3).
  rewrite of_type_app. unfold of_type. rewrite filter_cons_True by done. simpl.
  rewrite filter_app, fmap_app, filter_cons_True by done. done.
Qed.

(** what is evicted in priority_fifo mode leaves in queue order *)
Definition item_before (l : list item) (v w : item) : Prop :=
  class_rank (it_class v) < class_rank (it_class w) \/
  (it_class v = it_class w /\ exists l1 l2 l3, l = l1 ++ v :: l2 ++ w :: l3).

Lemma class_rank_inj c d : class_rank c = class_rank d -> c = d.
Proof. by destruct c, d. Qed.

Lemma sublist_two {A} (l k : list A) v w p q r : l = p ++ v :: q ++ w :: r -> l `sublist_of` k ->
  exists p' q' r', k = p' ++ v :: q' ++ w :: r'.
Proof.
  intros -> Hs. apply sublist_app_l in Hs as (k1 & k2 & -> & _ & Hs).
  apply sublist_cons_l in Hs as (k3 & k4 & -> & Hs).
  apply sublist_app_l in Hs as (k5 & k6 & -> & _ & Hs).
  apply sublist_cons_l in Hs as (k7 & k8 & -> & _).
  exists (k1 ++ k3), (k5 ++ k7), k8. by rewrite <-!app_assoc.
Qed.

Lemma evicts_order limit l l' : evicts limit l l' -> NoDup (it_key <$> l) ->
  forall v w, v ∈ l -> v ∉ l' -> w ∈ l' -> item_before l v w.
Proof.
  induction 1 as [|l1 it l2 l' Hlt H1 H2 He IH]; intros Hnd v w Hv Hv' Hw; [done|].
  assert (w ∈ l1 ++ l2) as Hw2 by by eapply evicts_elem.
  assert (v = it \/ v ∈ l1 ++ l2) as [->|Hne] by mem.
  - apply elem_of_app in Hw2 as [Hw2|Hw2].
    + rewrite Forall_forall in H1. left. by apply H1.
    + rewrite Forall_forall in H2. specialize (H2 w Hw2).
      destruct (decide (class_rank (it_class it) = class_rank (it_class w))) as [E|E]; [|left; lia].
      right. split; [by apply class_rank_inj|]. apply elem_of_list_split in Hw2 as (q1 & q2 & ->).
      by exists l1, q1, q2.
  - destruct (IH (proj2 (proj2 (nodup_mid _ _ _ Hnd))) v w) as [?|(Hc & p & q & r & Heq)]; try done.
    + by left.
    + right. split; [done|]. eapply sublist_two; [exact Heq|]. apply sublist_app; [done|].
      by apply sublist_cons.
Qed.

Definition qindex (c : class) : nat := class_rank c.
Lemma queues_pf p items c : pf_R p items ->
  queues (P_pf p) !! qindex c = Some (of_type (class_qtype c) items).
Proof.
  intros HR. pose proof (pf_R_queue _ _ HR (class_qtype c)) as H. rewrite <-H. by destruct c.
Qed.
Lemma of_type_in it items : it ∈ items -> it_key it ∈ of_type (class_qtype (it_class it)) items.
Proof. intros H. apply elem_of_list_fmap_1, elem_of_list_filter. done. Qed.

Lemma item_before_queues p items v w : pf_R p items -> v ∈ items -> w ∈ items ->
  item_before items v w -> evicted_before (it_key v) (it_key w) (queues (P_pf p)).
Proof.
  intros HR Hv Hw [H|(Hc & l1 & l2 & l3 & ->)].
  - exists (qindex (it_class v)), (qindex (it_class w)). do 2 eexists.
    split; [by eapply queues_pf|]. split; [by eapply queues_pf|].
    split; [by apply of_type_in|]. split; [by apply of_type_in|]. by left.
  - exists (qindex (it_class v)), (qindex (it_class w)). do 2 eexists.
    split; [by eapply queues_pf|]. split; [by eapply queues_pf|].
    split; [by apply of_type_in|]. split; [by apply of_type_in|]. right.
    split; [by rewrite Hc|]. by apply of_type_ahead; [|rewrite Hc].
Qed.

Lemma cached_item s a d : R s a -> cached s d <-> exists it, it ∈ a_items a /\ same_packet (it_data it) d.
Proof.
  intros HR. split.
  - intros (e & He & Hs). destruct (table_entry_item _ _ _ HR He) as (it & Hit & ->). by exists it.
  - intros (it & Hit & Hs). exists (strip it). split; [by eapply table_items_elem|done].
Qed.

Lemma pf_evict_order limit s p o s' r :
  reach limit s -> cs_policy s = P_pf p -> cs_step s o = Some (s', r) -> evicting o ->
  forall v w, cached s v -> ~ cached s' v -> cached s w -> cached s' w ->
  evicted_before (data_key v) (data_key w) (queues (cs_policy s)).
Proof.
  intros (a & HR & _)%reach_R Hpol Hstep Hev v w Hv Hv' Hw Hw'.
  pose proof (R_policy _ _ HR) as Hp. rewrite Hpol in Hp. destruct Hp as (Hk & HRp).
  pose proof (R_nodup _ _ HR) as Hnd. rewrite Hpol.
  rewrite (cached_item s a) in Hv, Hw by done.
  destruct Hv as (iv & Hiv & Hspv), Hw as (iw & Hiw & Hspw).
  apply same_packet_key in Hspv, Hspw. rewrite <-Hspv, <-Hspw.
  change (evicted_before (it_key iv) (it_key iw) (queues (P_pf p))).
  apply (item_before_queues _ _ _ _ HRp); [done|done|].
  assert (exists a', a_step a o a' r /\ R s' a') as (a' & Ha & HR').
  { destruct o as [now d u|pp lim|now i|lim|lim k|cap ad se|now ev|now pp count]; simpl in Hev; try done; simpl in Hstep.
    - destruct (cs_insert_R now d u s a HR) as (s2 & a' & E & Hi & HR'). rewrite E in Hstep.
      injection Hstep as <- <-. exists a'. split; [by constructor|done].
    - destruct (cs_set_limit_R lim s a HR) as (s2 & a' & E & Hi & HR'). rewrite E in Hstep.
      injection Hstep as <- <-. exists a'. split; [by constructor|done].
    - destruct (cs_configure_R lim k s a HR) as (s2 & a' & E & Hi & HR'). rewrite E in Hstep.
      injection Hstep as <- <-. exists a'. done.
    - destruct (cs_change_config_R cap ad se s a HR) as (s2 & a' & E & Hi & HR'). rewrite E in Hstep.
      injection Hstep as <- <-. exists a'. done. }
  rewrite (cached_item s' a') in Hv', Hw' by done.
  assert (Hkeep : forall l : list item, (forall x : item, x ∈ l <-> x ∈ a_items a') -> iv ∈ l -> False).
  { intros l Hl Hin. apply Hv'. exists iv. rewrite <-Hl. split; [done|]. by apply same_packet_key. }
  destruct Hw' as (iw' & Hiw' & Hspw'). apply same_packet_key in Hspw'.
  assert (Hset2 : forall lim l', evicts lim (a_items a) l' -> a_items a' = l' -> item_before (a_items a) iv iw).
  { intros lim l' He Hl. rewrite Hl in *. eapply evicts_order; [done|done|done| |].
    - intros Hin. apply (Hkeep l'); [done|done].
    - assert (iw' = iw) as <-; [|done]. apply (nodup_key_inj _ _ _ Hnd); [by eapply evicts_elem|done|].
      unfold it_key. congruence. }
  destruct Ha as [now d u a' Hi|pp lim a' n He|now i a' r Hf|lim a' Hl|lim k a1 a' Hl ->|
                   cap ad se a1 a' Hl ->|now ev a' Ht|now pp count a' n more Hm]; simpl in Hev; try done.
  - inversion Hi; subst; clear Hi; simpl in *.
    + exfalso. exact (Hkeep _ (fun x => iff_refl _) Hiv).
    + exfalso. apply Hv'. rewrite H2 in Hiv.
      apply elem_of_app in Hiv as [Hv1|Hv1]; [|apply elem_of_cons in Hv1 as [->|Hv1]].
      * exists iv. split; [mem|]. by apply same_packet_key.
      * eexists. split; [apply elem_of_app; right; apply elem_of_app; right; left|]. by apply same_packet_key.
      * exists iv. split; [mem|]. by apply same_packet_key.
    + match goal with H : evicts _ (_ ++ [?n]) _ |- _ => set (new := n) in * end.
      assert (NoDup (it_key <$> a_items a ++ [new])) as Hnd2.
      { rewrite fmap_app. apply NoDup_app. split; [done|]. split; [|apply NoDup_singleton].
        intros k (x & -> & Hx)%elem_of_list_fmap Hin. simpl in Hin. apply elem_of_list_singleton in Hin.
        apply (H2 x Hx). by apply same_packet_key. }
      assert (item_before (a_items a ++ [new]) iv iw) as Hb.
      { eapply evicts_order; [done|done|mem| |].
        - intros Hin. by apply (Hkeep l').
        - assert (iw' = iw) as <-; [|done]. apply (nodup_key_inj _ _ _ Hnd2); [by eapply evicts_elem|mem|].
          unfold it_key. congruence. }
      destruct Hb as [?|(Hc & q1 & q2 & q3 & Heq)]; [by left|]. right. split; [done|].
      destruct q3 as [|x q3 _] using rev_ind.
      * exfalso. rewrite app_comm_cons, app_assoc in Heq. apply app_inj_2 in Heq as [_ [= Heq]]; [|done].
        apply (H2 iw Hiw). by rewrite <-Heq.
      * exists q1, q2, q3. rewrite !app_comm_cons, !app_assoc in Heq.
        apply app_inj_2 in Heq as [-> _]; [|done]. by rewrite <-!app_assoc.
  - destruct Hl as (l' & He & ->). by eapply Hset2.
  - destruct Hl as (l' & He & ->). simpl in *. destruct l' as [|x l'].
    + exfalso. destruct k; simpl in Hiw'; by apply elem_of_nil in Hiw'.
    + by eapply Hset2.
  - destruct cap as [c|]; [destruct Hl as (l' & He & ->); by eapply Hset2|]. subst.
    exfalso. exact (Hkeep _ (fun x => iff_refl _) Hiv).
Qed.

Lemma class_of_rank now u dl : class_rank (class_of K_pf now u dl) = arrival_class now u dl.
Proof. unfold class_of, arrival_class. destruct u; [done|]. case_decide; case_match; simpl; lia. Qed.

Lemma last_of_type ty items it : class_qtype (it_class it) = ty ->
  last (of_type ty (items ++ [it])) = Some (it_key it).
Proof.
  intros H. rewrite of_type_app. unfold of_type at 2. rewrite filter_cons_True by done. simpl.
  by rewrite last_snoc.
Qed.

Lemma evicts_last limit l x l' : evicts limit (l ++ [x]) l' -> NoDup (it_key <$> l ++ [x]) -> x ∈ l' ->
  exists l1, l' = l1 ++ [x].
Proof.
  intros He%evicts_sublist Hnd Hx. apply sublist_app_r in He as (l1 & l2 & -> & H1 & H2).
  apply sublist_cons_r in H2 as [H2|(l3 & -> & H2)].
  - apply sublist_nil_r in H2 as ->. rewrite app_nil_r in *. exfalso.
    rewrite fmap_app in Hnd. apply NoDup_app in Hnd as (_ & Hd & _).
    apply (Hd (it_key x)); [|simpl; left]. apply elem_of_list_fmap_1. by eapply sublist_elem_of.
  - apply sublist_nil_r in H2 as ->. by exists l1.
Qed.

Lemma pf_insert_main limit s p now d u s' :
  reach limit s -> cs_policy s = P_pf p -> cs_insert now d u s = Some s' ->
  cs_admit s = true -> (0 < cs_limit s)%N -> d_nocache d = false ->
  (forall e, e ∈ cs_table s' -> same_packet (e_data e) d ->
     exists q, queues (cs_policy s') !! arrival_class now (e_unsol e) (e_fresh_until e) = Some q /\
       last q = Some (data_key d)) /\
  (~ cached s' d ->
     cs_table s' ≡ₚ cs_table s /\
     forall e, e ∈ cs_table s -> exists j q, queues (cs_policy s) !! j = Some q /\ e_key e ∈ q /\
       arrival_class now u (fresh_deadline now d) < j).
Proof.
  intros (a & HR & Hfit)%reach_R Hpol Hins0 Had Hlim Hnc.
  pose proof (R_policy _ _ HR) as Hp. rewrite Hpol in Hp. destruct Hp as (Hk & HRp).
  destruct (cs_insert_R now d u s a HR) as (s2 & a' & Hins & Hi & HR').
  rewrite Hins0 in Hins. injection Hins as <-.
  pose proof (R_nodup _ _ HR) as Hnd. pose proof (R_nodup _ _ HR') as Hnd'.
  pose proof (R_policy _ _ HR') as Hp'.
  inversion Hi; subst; clear Hi.
  - rewrite <-(R_admit _ _ HR), <-(R_limit _ _ HR) in H. destruct H as [H|[H|H]]; [congruence|lia|congruence].
  - set (new := Item _ _ _ _) in *. simpl in Hp', Hnd'.
    destruct (cs_policy s') as [q'|p']; [naive_solver congruence|]. destruct Hp' as (_ & HRp').
    split.
    + intros e He Hsp. destruct (table_entry_item _ _ _ HR' He) as (x & Hx & ->). simpl in Hx, Hsp.
      assert (x = new) as ->.
      { apply (nodup_key_inj _ _ _ Hnd'); [done|mem|]. apply same_packet_key.
        eapply same_packet_trans; [done|]. apply same_packet_sym. done. }
      eexists. split.
      * rewrite <-class_of_rank.
        replace (class_of K_pf now (e_unsol (strip new)) (e_fresh_until (strip new))) with (it_class new)
          by (unfold new; simpl; by rewrite Hk).
        by apply (queues_pf p').
      * rewrite app_assoc. rewrite last_of_type by done. f_equal. by apply same_packet_key.
    + intros Hnot. exfalso. apply Hnot. apply (cached_item s' _ d HR'). exists new. simpl. split; [mem|done].
  - match goal with H : evicts _ (_ ++ [?n]) _ |- _ => set (new := n) in * end. simpl in Hp', Hnd'.
    assert (NoDup (it_key <$> a_items a ++ [new])) as Hnd2.
    { rewrite fmap_app. apply NoDup_app. split; [done|]. split; [|apply NoDup_singleton].
      intros k (x & -> & Hx)%elem_of_list_fmap Hin. simpl in Hin. apply elem_of_list_singleton in Hin.
      apply (H2 x Hx). by apply same_packet_key. }
    destruct (cs_policy s') as [q'|p']; [naive_solver congruence|]. destruct Hp' as (_ & HRp').
    split.
    + intros e He Hsp. destruct (table_entry_item _ _ _ HR' He) as (x & Hx & ->). simpl in Hx, Hsp.
      assert (x = new) as ->.
      { apply (nodup_key_inj _ _ _ Hnd2); [by eapply evicts_elem|mem|]. by apply same_packet_key. }
      destruct (evicts_last _ _ _ _ H3 Hnd2 Hx) as (l1 & ->).
      eexists. split.
      * rewrite <-class_of_rank.
        replace (class_of K_pf now (e_unsol (strip new)) (e_fresh_until (strip new))) with (it_class new)
          by (unfold new; simpl; by rewrite Hk).
        by apply (queues_pf p').
      * by rewrite last_of_type by done.
    + intros Hnot. assert (new ∉ l') as Hnew.
      { intros Hin. apply Hnot. apply (cached_item s' _ d HR'). by exists new. }
      assert (l' ≡ₚ a_items a) as Hperm.
      { pose proof (evicts_sublist _ _ _ H3) as Hsub.
        apply sublist_app_r in Hsub as (k1 & k2 & Hl' & S1 & S2).
        apply sublist_cons_r in S2 as [S2|(k3 & Hk2 & _)]; [|exfalso; apply Hnew; rewrite Hl', Hk2; mem].
        apply sublist_nil_r in S2. rewrite Hl', S2, app_nil_r in *.
        apply evicts_length in H3. rewrite app_length in H3. simpl in H3. unfold fits in Hfit.
        assert (length k1 = length (a_items a)) as Hlen.
        { apply sublist_length in S1. rewrite <-(R_limit _ _ HR) in *.
          lia. }
        apply sublist_submseteq, submseteq_Permutation in S1 as (k & Hk').
        pose proof (Permutation_length Hk') as Hlk. rewrite app_length in Hlk.
        destruct k; [|simpl in Hlk; lia]. by rewrite app_nil_r in Hk'. }
      split.
      * rewrite (R_items _ _ HR'), (R_items _ _ HR). simpl. by rewrite Hperm.
      * intros e He. destruct (table_entry_item _ _ _ HR He) as (x & Hx & ->).
        exists (qindex (it_class x)). eexists. split; [rewrite Hpol; by apply (queues_pf p)|].
        split; [rewrite strip_key; by apply of_type_in|].
        destruct (evicts_order _ _ _ H3 Hnd2 new x) as [Hr|(Hc & q1 & q2 & q3 & Heq)].
        -- mem.
        -- done.
        -- by rewrite Hperm.
        -- unfold new in Hr. simpl in Hr. rewrite Hk, class_of_rank in Hr. done.
        -- exfalso.
           assert (new ∈ a_items a) as Hin.
           { destruct q3 as [|y q3 _] using rev_ind.
             - rewrite app_comm_cons, app_assoc in Heq. apply app_inj_2 in Heq as [-> _]; [|done]. mem.
             - rewrite !app_comm_cons, !app_assoc in Heq.
               apply app_inj_2 in Heq as [-> _]; [|done]. mem. }
           by apply (H2 _ Hin).
Qed.

Lemma of_type_sub ty l : of_type ty l `sublist_of` (it_key <$> l).
Proof.
  unfold of_type. apply sublist_map. induction l as [|x l IH]; [done|].
  rewrite filter_cons. case_decide; by constructor.
Qed.

Lemma pf_timer_main limit s p e :
  reach limit s -> cs_policy s = P_pf p -> e ∈ cs_table s -> e_key e ∈ pf_fifo p ->
  exists ev, forall now,
    ((now < e_fresh_until e)%Z -> cs_timer now ev s = Some s) /\
    ((e_fresh_until e <= now)%Z -> exists p' q1 q2,
       cs_timer now ev s = Some (cs_with s (cs_table s) (P_pf p')) /\
       pf_fifo p = q1 ++ e_key e :: q2 /\ pf_fifo p' = q1 ++ q2 /\
       pf_stale p' = pf_stale p ++ [e_key e] /\ pf_unsol p' = pf_unsol p).
Proof.
  intros (a & HR & Hfit)%reach_R Hpol He Hin.
  pose proof (R_policy _ _ HR) as Hp. rewrite Hpol in Hp. destruct Hp as (Hk & HRp).
  pose proof (R_nodup _ _ HR) as Hnd.
  destruct (table_entry_item _ _ _ HR He) as (it & Hit & ->). rewrite strip_key in *. simpl.
  assert (it_class it = Regular) as Hr.
  { change (it_key it ∈ pf_queue Q_FIFO p) in Hin. rewrite (pf_R_queue _ _ HRp) in Hin.
    unfold of_type in Hin. apply elem_of_list_fmap in Hin as (x & Hx & Hxin).
    apply elem_of_list_filter in Hxin as [Hc Hxin].
    assert (it = x) as -> by by apply (nodup_key_inj _ _ _ Hnd).
    by destruct (it_class x). }
  destruct (pf_R_info _ _ HRp it Hit) as (ev & Hg & Hev). destruct (Hev Hr) as (id & -> & Ht).
  exists id. intros now.
  assert (List.find (fun t => (t.1 =? id)%N) (pf_timers p) = Some (id, (it_key it, it_fresh_until it))) as Hfind.
  { pose proof (pf_R_ids _ _ HRp) as Hids. revert Hids Ht. generalize (pf_timers p). clear.
    intros l. induction l as [|t l IH]; intros Hids Ht; [by apply elem_of_nil in Ht|].
    simpl in *. apply NoDup_cons in Hids as [Hn Hids]. apply elem_of_cons in Ht as [<-|Ht].
    - simpl. by rewrite N.eqb_refl.
    - destruct (t.1 =? id)%N eqn:E; [|by apply IH]. apply N.eqb_eq in E. exfalso. apply Hn. rewrite E.
      by apply (elem_of_list_fmap_1 fst) in Ht. }
  unfold cs_timer. rewrite Hpol, Hfind. split.
  - intros Hlt. assert ((it_fresh_until it <=? now)%Z = false) as -> by lia. done.
  - intros Hle. assert ((it_fresh_until it <=? now)%Z = true) as -> by lia.
    unfold pf_move_to_stale. simpl. rewrite Hg. rewrite Hr. simpl.
    apply elem_of_list_split in Hin as (q1 & q2 & Hq).
    eexists _, q1, q2. split; [done|]. simpl. split; [done|]. rewrite Hq. split_and!; [|done|done].
    assert (NoDup (pf_fifo p)) as Hndq.
    { change (NoDup (pf_queue Q_FIFO p)). rewrite (pf_R_queue _ _ HRp).
      eapply sublist_nodup; [apply of_type_sub|done]. }
    rewrite Hq in Hndq. apply NoDup_app in Hndq as (_ & Hd & Hn2). apply NoDup_cons in Hn2 as [Hn2 _].
    apply key_remove_mid; [|done]. intros Hx. apply (Hd _ Hx). left.
Qed.

(** * Management erase *)
Lemma cs_mgmt_erase_main limit now p count s : reach_wf limit s -> name_valid p ->
  cs_serve s = true -> (0 < cs_limit s)%N ->
  let wanted := match count with Some c => c | None => (2^64 - 1)%N end in
  exists s' n more, cs_mgmt_erase now p count s = Some (s', (n, more)) /\
    (n <= N.min wanted 256)%N /\
    (exists victims, cs_table s ≡ₚ victims ++ cs_table s' /\ N.of_nat (length victims) = n /\
       Forall (fun v => under p (e_data v)) victims) /\
    (more = false -> n = wanted \/ forall e, e ∈ cs_table s' -> ~ under p (e_data e)) /\
    (more = true -> (n < wanted)%N /\ exists e, e ∈ cs_table s' /\ under p (e_data e)).
Proof.
  intros Hreach Hv Hserve Hlim wanted.
  destruct (cs_erase_main limit p (N.min wanted 256) s Hreach Hv)
    as (s1 & n & He & Hle & Hsub & (vs & Hperm & Hlen & HFv & Hord) & Hall & _ & Hl & Ha & Hs).
  unfold cs_mgmt_erase.
  assert (default SIZE_MAX count = wanted) as -> by by destruct count.
  unfold ERASE_LIMIT. rewrite He.
  destruct ((n =? 256)%N && (256 <? wanted)%N) eqn:E.
  - destruct Hreach as (ops & rs & Hwo & Hrun).
    assert (reach_wf limit s1) as Hreach1.
    { exists (ops ++ [OErase p (N.min wanted 256)]), (rs ++ [RErased n]).
      split; [rewrite Forall_app, Forall_singleton; done|].
      rewrite cs_run_app, Hrun. simpl. by rewrite He. }
    destruct (cs_find_main limit now (prefix_interest p) s1 Hreach1) as (s2 & r & Hf & Ht & Hr).
    rewrite Hf. destruct r as [d|].
    + exists s2, n, true. split; [done|]. split; [done|]. rewrite Ht. split; [by exists vs|].
      split; [done|]. intros _. split; [lia|].
      destruct Hr as (_ & _ & e & Hin & _ & Hsat & _). exists e. split; [done|].
      destruct e as [d' u f]. by apply (satisfies_under now (prefix_interest p) (Item d' u f Regular)).
    + exists s2, n, false. split; [done|]. split; [done|]. rewrite Ht. split; [by exists vs|].
      split; [|done]. intros _. right. intros [d' u f] Hin Hu.
      destruct Hr as [Hr|[Hr|Hr]]; [congruence|rewrite Hl in Hr; lia|].
      apply (Hr _ Hin). apply (entry_satisfies_strip now (prefix_interest p) (Item d' u f Regular)).
      by apply prefix_interest_satisfies.
  - exists s1, n, false. split; [done|]. split; [done|]. split; [by exists vs|].
    split; [|done]. intros _.
    destruct (decide (n = N.min wanted 256)) as [Hn|Hn]; [|right; by apply Hall].
    left. lia.
Qed.

Lemma fresh_deadline_exact now d :
  (0 <= now)%Z -> (0 <= d_fresh d)%Z -> (now + d_fresh d * 1000000 < 2^63)%Z ->
  fresh_deadline now d = (now + d_fresh d * 1000000)%Z.
Proof.
  intros H1 H2 H3. unfold fresh_deadline, ns_of_ms, wrap64, NS_PER_MS.
  rewrite (Z.mod_small (d_fresh d * 1000000 + 2^63)) by lia.
  rewrite Z.mod_small by lia. lia.
Qed.

Lemma cs_refines limit ops : Forall op_wf ops -> exists s rs a,
  cs_run (cs_init limit) ops = Some (s, rs) /\ a_run (acs_init limit) ops a rs /\
  cs_table s ≡ₚ (fun it => Entry (it_data it) (it_unsol it) (it_fresh_until it)) <$> a_items a /\
  cs_limit s = a_limit a /\ cs_admit s = a_admit a /\ cs_serve s = a_serve a.
Proof.
  intros Hwf.
  destruct (cs_run_R (cs_init limit) (acs_init limit) ops) as (s & rs & a & Hrun & Ha & HR & Hw);
    [apply R_init|constructor|done|].
  exists s, rs, a. split; [done|]. split; [done|]. split; [apply HR|]. split; [apply HR|].
  split; apply HR.
Qed.

(** a computable check that a management erase is reported complete too early *)
Definition mgmt_erase_early (limit : N) (ops : list cs_op) (now : Z) (p : name) : bool :=
  match cs_run (cs_init limit) ops with
  | Some (s, _) =>
      match cs_mgmt_erase now p None s with
      | Some (s', (_, false)) =>
          match cs_table s' with
          | e :: _ => name_prefixb p (d_name (e_data e))
          | [] => false
          end
      | _ => false
      end
  | None => false
  end.
Lemma mgmt_erase_witness limit ops now p : mgmt_erase_early limit ops now p = true ->
  exists limit s s' now p n e,
  reach limit s /\ cs_mgmt_erase now p None s = Some (s', (n, false)) /\
  e ∈ cs_table s' /\ under p (e_data e).
Proof.
  unfold mgmt_erase_early. destruct (cs_run _ _) as [[s rs]|] eqn:E1; [|done].
  destruct (cs_mgmt_erase _ _ _ _) as [[s' [n []]]|] eqn:E2; try done.
  destruct (cs_table s') as [|e t] eqn:E3; [done|]. intros H.
  exists limit, s, s', now, p, n, e. split; [by exists ops, rs|]. split; [done|].
  rewrite E3. split; [left|]. unfold under. apply prefix_app_r. by apply name_prefixb_prefix.
Qed.
