(** Refinement of the content-store model to its specification. *)
From Verif Require Import Lib Name_Model Name_Spec Name_Proof Packet_Model Cs_Model Cs_Spec.

(** * Keys *)
Lemma key_cmp_ok : cmp_ok key_cmp.
Proof.
  assert (H : cmp_ok (pair_cmp name_cmp
                (fun v w => comp_cmp (T_IMPLICIT_DIGEST, v) (T_IMPLICIT_DIGEST, w)))).
  { apply pair_cmp_ok; [apply name_cmp_ok|]. split; intros.
    - rewrite (cmp_eq comp_cmp_ok). naive_solver.
    - apply (cmp_sym comp_cmp_ok).
    - by eapply (cmp_trans comp_cmp_ok). }
  exact H.
Qed.
Lemma key_eqb_eq k l : key_eqb k l = true <-> k = l.
Proof.
  unfold key_eqb. rewrite <-(cmp_eq key_cmp_ok). destruct (key_cmp k l); naive_solver.
Qed.
Lemma key_eqb_refl k : key_eqb k k = true.
Proof. by apply key_eqb_eq. Qed.
Lemma key_eqb_neq k l : key_eqb k l = false <-> k <> l.
Proof. rewrite <-key_eqb_eq. destruct (key_eqb k l); naive_solver. Qed.

Lemma key_mem_spec k q : key_mem k q = true <-> k ∈ q.
Proof.
  unfold key_mem. rewrite existsb_exists. split.
  - intros (x & Hx & ->%key_eqb_eq). by apply elem_of_list_In.
  - intros H. exists k. split; [by apply elem_of_list_In|by apply key_eqb_eq].
Qed.
Lemma key_mem_false k q : key_mem k q = false <-> k ∉ q.
Proof. rewrite <-key_mem_spec. destruct (key_mem k q); naive_solver. Qed.

(** [List.filter] is stable and total; small helpers about it. *)
Lemma lfilter_elem {A} (f : A -> bool) l x : x ∈ List.filter f l <-> x ∈ l /\ f x = true.
Proof. rewrite !elem_of_list_In. apply filter_In. Qed.
Lemma lfilter_app {A} (f : A -> bool) l k : List.filter f (l ++ k) = List.filter f l ++ List.filter f k.
Proof. induction l as [|x l IH]; simpl; [done|]. destruct (f x); simpl; by rewrite IH. Qed.
Lemma lfilter_all {A} (f : A -> bool) l : (forall x, x ∈ l -> f x = true) -> List.filter f l = l.
Proof.
  induction l as [|x l IH]; intros H; simpl; [done|].
  rewrite (H x) by set_solver. f_equal. apply IH. set_solver.
Qed.
Lemma lfilter_none {A} (f : A -> bool) l : (forall x, x ∈ l -> f x = false) -> List.filter f l = [].
Proof.
  induction l as [|x l IH]; intros H; simpl; [done|].
  rewrite (H x) by set_solver. apply IH. set_solver.
Qed.
Lemma lfilter_sorted {A} (R : relation A) f l : StronglySorted R l -> StronglySorted R (List.filter f l).
Proof.
  induction 1 as [|x l Hl IH HF]; simpl; [constructor|].
  destruct (f x); [|done]. constructor; [done|].
  rewrite Forall_forall in HF |- *. intros y [Hy _]%lfilter_elem. auto.
Qed.
Lemma lfilter_perm {A} (f : A -> bool) l k : l ≡ₚ k -> List.filter f l ≡ₚ List.filter f k.
Proof.
  induction 1; simpl; repeat case_match; try done.
  - by constructor.
  - constructor.
  - etrans; eauto.
Qed.
Lemma find_some_elem {A} (f : A -> bool) l x : List.find f l = Some x -> x ∈ l /\ f x = true.
Proof. intros H. apply find_some in H. by rewrite elem_of_list_In. Qed.
Lemma find_none_elem {A} (f : A -> bool) l x : List.find f l = None -> x ∈ l -> f x = false.
Proof. intros H Hx. eapply find_none in H; [done|by apply elem_of_list_In]. Qed.
Lemma find_some_split {A} (f : A -> bool) l x : List.find f l = Some x ->
  exists l1 l2, l = l1 ++ x :: l2 /\ f x = true /\ forall y, y ∈ l1 -> f y = false.
Proof.
  induction l as [|y l IH]; simpl; [done|]. destruct (f y) eqn:E.
  - intros [= ->]. exists [], l. set_solver.
  - intros (l1 & l2 & -> & Hf & Hl1)%IH. exists (y :: l1), l2.
    split; [done|]. split; [done|]. intros z. rewrite elem_of_cons. naive_solver.
Qed.

Lemma key_remove_notin k q : k ∉ q -> key_remove k q = q.
Proof.
  intros H. apply lfilter_all. intros x Hx. rewrite negb_true_iff, key_eqb_neq. set_solver.
Qed.
Lemma key_remove_mid k q1 q2 : k ∉ q1 -> k ∉ q2 -> key_remove k (q1 ++ k :: q2) = q1 ++ q2.
Proof.
  intros H1 H2. unfold key_remove. rewrite lfilter_app. simpl. rewrite key_eqb_refl. simpl.
  f_equal; by apply key_remove_notin.
Qed.

(** * Items and entries *)
Definition it_key (it : item) : key := data_key (it_data it).
Definition strip (it : item) : entry := Entry (it_data it) (it_unsol it) (it_fresh_until it).

Lemma strip_key it : e_key (strip it) = it_key it.
Proof. done. Qed.
Lemma same_packet_key d e : same_packet d e <-> data_key d = data_key e.
Proof. unfold same_packet, data_key. split; [by intros [-> ->]|]. by intros [= -> ->]. Qed.

Definition tbl_lt (e f : entry) : Prop := key_cmp (e_key e) (e_key f) = Lt.
Definition tbl_sorted (t : list entry) : Prop := StronglySorted tbl_lt t.

Lemma tbl_sorted_nodup t : tbl_sorted t -> NoDup (e_key <$> t).
Proof.
  induction 1 as [|e t Ht IH HF]; simpl; constructor; [|done].
  intros (f & Hf & Hin)%elem_of_list_fmap. rewrite Forall_forall in HF.
  specialize (HF f Hin). unfold tbl_lt in HF. rewrite Hf, (cmp_refl key_cmp_ok) in HF. done.
Qed.

Lemma tbl_erase_perm k t it items :
  k = it_key it -> NoDup (it_key <$> (it :: items)) -> t ≡ₚ strip <$> (it :: items) ->
  tbl_erase k t ≡ₚ strip <$> items.
Proof.
  intros -> Hnd Ht. unfold tbl_erase. rewrite (lfilter_perm _ _ _ Ht). simpl.
  rewrite strip_key, key_eqb_refl. simpl. rewrite lfilter_all; [done|].
  intros e (it' & -> & Hin)%elem_of_list_fmap. rewrite negb_true_iff, key_eqb_neq, strip_key.
  simpl in Hnd. apply NoDup_cons in Hnd as [Hnd _]. intros Heq. apply Hnd.
  rewrite Heq. by apply elem_of_list_fmap_1.
Qed.
Lemma tbl_erase_sorted k t : tbl_sorted t -> tbl_sorted (tbl_erase k t).
Proof. apply lfilter_sorted. Qed.

Lemma tbl_emplace_spec e t t' b :
  tbl_sorted t -> tbl_emplace e t = (t', b) ->
  (b = true /\ e_key e ∉ (e_key <$> t) /\ tbl_sorted t' /\ t' ≡ₚ e :: t) \/
  (b = false /\ e_key e ∈ (e_key <$> t) /\ t' = t).
Proof.
  intros Hs. revert t' b. induction Hs as [|f t Hs IH HF]; intros t' b; simpl.
  - intros [= <- <-]. left. split_and!; [done|mem|repeat constructor|done].
  - destruct (key_cmp (e_key e) (e_key f)) eqn:E.
    + intros [= <- <-]. right. apply key_cmp_ok in E. split_and!; [done|rewrite E; left|done].
    + intros [= <- <-]. left.
      assert (Forall (tbl_lt e) (f :: t)) as Hall.
      { constructor; [done|]. eapply Forall_impl; [exact HF|].
        intros g Hg. by eapply (cmp_trans key_cmp_ok). }
      split_and!; [done| |constructor; [by constructor|done]|done].
      intros (g & Hg & Hin)%(elem_of_list_fmap_2 e_key (f :: t)).
      rewrite Forall_forall in Hall. specialize (Hall g Hin). unfold tbl_lt in Hall.
      rewrite Hg, (cmp_refl key_cmp_ok) in Hall. done.
    + destruct (tbl_emplace e t) as [t'' b'] eqn:E'. intros [= <- <-].
      destruct (IH _ _ eq_refl) as [(-> & Hn & Hs' & Hp)|(-> & Hin & ->)].
      * left. split_and!; [done| | |].
        -- simpl. apply not_elem_of_cons. split; [|done].
           intros Heq. rewrite Heq, (cmp_refl key_cmp_ok) in E. done.
        -- constructor; [done|]. rewrite Hp. constructor; [|done].
           by apply (cmp_gt_lt key_cmp_ok).
        -- rewrite Hp. constructor.
      * right. split_and!; [done|mem|done].
Qed.

(** an update that keeps keys keeps the sorting *)
Lemma tbl_update_keys k f t : (forall e, e_key (f e) = e_key e) ->
  e_key <$> tbl_update k f t = e_key <$> t.
Proof.
  intros Hf. unfold tbl_update. induction t as [|e t IH]; simpl; [done|].
  f_equal; [|done]. case_match; [by rewrite Hf|done].
Qed.
Lemma tbl_sorted_fmap t : tbl_sorted t <-> StronglySorted (fun k l => key_cmp k l = Lt) (e_key <$> t).
Proof.
  induction t as [|e t IH]; simpl; [split; constructor|]. split.
  - inversion 1; subst. constructor; [by apply IH|]. by rewrite Forall_fmap.
  - inversion 1; subst. constructor; [by apply IH|]. by rewrite Forall_fmap in *.
Qed.
Lemma tbl_update_sorted k f t : (forall e, e_key (f e) = e_key e) ->
  tbl_sorted t -> tbl_sorted (tbl_update k f t).
Proof. intros Hf. rewrite !tbl_sorted_fmap, tbl_update_keys; done. Qed.

Lemma tbl_update_perm f t it items it' :
  NoDup (it_key <$> (it :: items)) -> t ≡ₚ strip <$> (it :: items) ->
  f (strip it) = strip it' ->
  tbl_update (it_key it) f t ≡ₚ strip <$> (it' :: items).
Proof.
  intros Hnd Ht Hf. unfold tbl_update. rewrite Ht. simpl.
  rewrite strip_key, key_eqb_refl, Hf. apply Permutation_skip.
  rewrite <-list_fmap_compose. apply reflexive_eq. apply list_fmap_ext.
  intros i x Hx%elem_of_list_lookup_2. simpl.
  assert (key_eqb (it_key it) (it_key x) = false) as Hne; [|by rewrite strip_key, Hne].
  apply key_eqb_neq. simpl in Hnd. apply NoDup_cons in Hnd as [Hnd _].
  intros Heq. apply Hnd. rewrite Heq. by apply elem_of_list_fmap_1.
Qed.

Lemma tbl_get_perm t it items :
  NoDup (it_key <$> (it :: items)) -> t ≡ₚ strip <$> (it :: items) ->
  tbl_get (it_key it) t = Some (strip it).
Proof.
  intros Hnd Ht. unfold tbl_get.
  destruct (List.find _ t) as [e|] eqn:E.
  - apply find_some_elem in E as [Hin Heq]. rewrite Ht in Hin.
    apply key_eqb_eq in Heq. simpl in Hin. apply elem_of_cons in Hin as [->|Hin]; [done|].
    apply elem_of_list_fmap in Hin as (x & -> & Hin). exfalso.
    simpl in Hnd. apply NoDup_cons in Hnd as [Hnd _]. apply Hnd. rewrite Heq.
    by apply (elem_of_list_fmap_1 it_key).
  - exfalso. assert (strip it ∈ t) as Hin by (rewrite Ht; mem).
    pose proof (find_none_elem _ _ _ E Hin) as Hk. simpl in Hk.
    by rewrite strip_key, key_eqb_refl in Hk.
Qed.

Lemma nodup_fst_lfilter {A B} (f : A * B -> bool) l : NoDup (l.*1) -> NoDup ((List.filter f l).*1).
Proof.
  induction l as [|x l IH]; simpl; [done|]. intros [Hx Hl]%NoDup_cons.
  case_match; [|by apply IH]. simpl. apply NoDup_cons. split; [|by apply IH].
  intros (y & Hy & [Hin _]%lfilter_elem)%elem_of_list_fmap. apply Hx. rewrite Hy.
  by apply elem_of_list_fmap_1.
Qed.

(** * The refinement relation *)
Definition class_qtype (c : class) : qtype :=
  match c with Unsolicited => Q_UNSOLICITED | Stale => Q_STALE | Regular => Q_FIFO end.
Global Instance qtype_eq_dec : EqDecision qtype.
Proof. solve_decision. Defined.
Global Instance class_eq_dec : EqDecision class.
Proof. solve_decision. Defined.

Definition of_type (ty : qtype) (items : list item) : list key :=
  it_key <$> filter (fun it => class_qtype (it_class it) = ty) items.

Record pf_R (p : pf) (items : list item) : Prop := {
  pf_R_queue ty : pf_queue ty p = of_type ty items;
  pf_R_info it : it ∈ items ->
    exists ev, info_get (it_key it) (pf_info p) = Some (class_qtype (it_class it), ev) /\
      (it_class it = Regular -> exists id, ev = Some id /\
         (id, (it_key it, it_fresh_until it)) ∈ pf_timers p);
  pf_R_info_only k x : info_get k (pf_info p) = Some x -> k ∈ (it_key <$> items);
  pf_R_ids : NoDup ((pf_timers p).*1);
  pf_R_next : Forall (fun t => (t.1 < pf_next p)%N) (pf_timers p);
  pf_R_timer id k dl : (id, (k, dl)) ∈ pf_timers p ->
    exists it, it ∈ items /\ it_key it = k /\ it_class it = Regular /\
      it_fresh_until it = dl /\ info_get k (pf_info p) = Some (Q_FIFO, Some id);
}.

Record R (s : cs) (a : acs) : Prop := {
  R_limit : cs_limit s = a_limit a;
  R_admit : cs_admit s = a_admit a;
  R_serve : cs_serve s = a_serve a;
  R_sorted : tbl_sorted (cs_table s);
  R_items : cs_table s ≡ₚ strip <$> a_items a;
  R_policy : match cs_policy s with
    | P_lru q => a_kind a = K_lru /\ q = it_key <$> a_items a /\
                 Forall (fun it => it_class it = Regular) (a_items a)
    | P_pf p => a_kind a = K_pf /\ pf_R p (a_items a)
    end;
}.

Lemma items_nodup t items : tbl_sorted t -> t ≡ₚ strip <$> items -> NoDup (it_key <$> items).
Proof.
  intros Hs Hp. apply tbl_sorted_nodup in Hs. rewrite Hp in Hs.
  by rewrite <-list_fmap_compose in Hs.
Qed.
Lemma R_nodup s a : R s a -> NoDup (it_key <$> a_items a).
Proof. intros H. eapply items_nodup; apply H. Qed.

(** * Association map of priority_fifo *)
Lemma info_get_cons k x i l :
  info_get l ((k, x) :: i) = if key_eqb l k then Some x else info_get l i.
Proof. unfold info_get. simpl. by destruct (key_eqb l k). Qed.
Lemma info_get_del k l i : info_get l (info_del k i) = if key_eqb k l then None else info_get l i.
Proof.
  unfold info_get, info_del. induction i as [|[k' x] i IH]; simpl.
  { by destruct (key_eqb k l). }
  destruct (key_eqb k k') eqn:E; simpl.
  - apply key_eqb_eq in E as <-. rewrite IH.
    destruct (key_eqb l k) eqn:E'; [|done].
    apply key_eqb_eq in E' as ->. by rewrite key_eqb_refl.
  - destruct (key_eqb l k') eqn:E'; [|done].
    apply key_eqb_eq in E' as ->. by rewrite E.
Qed.

Lemma of_type_mid ty l1 it l2 :
  of_type ty (l1 ++ it :: l2) =
  of_type ty l1 ++ (if decide (class_qtype (it_class it) = ty) then [it_key it] else []) ++ of_type ty l2.
Proof.
  unfold of_type. rewrite filter_app, filter_cons, fmap_app. f_equal.
  by destruct (decide _).
Qed.
Lemma of_type_app ty l1 l2 : of_type ty (l1 ++ l2) = of_type ty l1 ++ of_type ty l2.
Proof. unfold of_type. by rewrite filter_app, fmap_app. Qed.
Lemma of_type_elem ty l k : k ∈ of_type ty l -> k ∈ (it_key <$> l).
Proof.
  unfold of_type. intros (it & -> & [_ H]%elem_of_list_filter)%elem_of_list_fmap.
  by apply elem_of_list_fmap_1.
Qed.

Lemma pf_queue_set_same ty q p : pf_queue ty (pf_set_queue ty q p) = q.
Proof. by destruct ty. Qed.
Lemma pf_queue_set_other ty ty' q p : ty <> ty' -> pf_queue ty (pf_set_queue ty' q p) = pf_queue ty p.
Proof. by destruct ty, ty'. Qed.

Lemma nodup_mid l1 it l2 : NoDup (it_key <$> l1 ++ it :: l2) ->
  it_key it ∉ (it_key <$> l1) /\ it_key it ∉ (it_key <$> l2) /\ NoDup (it_key <$> l1 ++ l2).
Proof.
  rewrite !fmap_app, fmap_cons. rewrite !NoDup_app, NoDup_cons.
  intros (H1 & H2 & H3 & H4). split_and!; [|done|done| |done].
  - intros H. by apply (H2 _ H); left.
  - intros x Hx Hx'. by apply (H2 _ Hx); right.
Qed.
Lemma nodup_key_inj l it it' : NoDup (it_key <$> l) -> it ∈ l -> it' ∈ l ->
  it_key it = it_key it' -> it = it'.
Proof.
  intros Hnd [i Hi]%elem_of_list_lookup [j Hj]%elem_of_list_lookup Heq.
  assert (i = j) as ->; [|congruence].
  eapply (NoDup_lookup (it_key <$> l)); [done| |].
  - by rewrite list_lookup_fmap, Hi.
  - by rewrite list_lookup_fmap, Hj, Heq.
Qed.

Lemma pf_detach_R p l1 it l2 :
  NoDup (it_key <$> l1 ++ it :: l2) -> pf_R p (l1 ++ it :: l2) ->
  exists p', pf_detach (it_key it) p = Some p' /\ pf_R p' (l1 ++ l2) /\
             info_get (it_key it) (pf_info p') = None.
Proof.
  intros Hnd HR. pose proof (nodup_mid _ _ _ Hnd) as (Hn1 & Hn2 & Hnd').
  destruct (pf_R_info _ _ HR it) as (ev & Hinfo & Hreg); [mem|].
  unfold pf_detach. rewrite Hinfo.
  set (p1 := match class_qtype (it_class it), ev with
             | Q_FIFO, Some id => _ | _, _ => p end).
  assert (pf_info p1 = pf_info p /\ (forall ty, pf_queue ty p1 = pf_queue ty p) /\
          pf_next p1 = pf_next p) as (Hi1 & Hq1 & Hnx).
  { subst p1. by destruct (class_qtype (it_class it)), ev; repeat split; intros []. }
  assert (forall id k dl, (id, (k, dl)) ∈ pf_timers p1 <->
            (id, (k, dl)) ∈ pf_timers p /\ k <> it_key it) as Htm.
  { intros id k dl. destruct (it_class it) eqn:Ec; subst p1; simpl.
    1,2: split; [|naive_solver]; intros Hin; split; [done|]; intros ->;
       destruct (pf_R_timer _ _ HR _ _ _ Hin) as (it' & Hin' & Hk & Hr & _);
       (assert (it' = it) as -> by (eapply (nodup_key_inj _ _ _ Hnd); [done|mem|done])); congruence.
    destruct (Hreg eq_refl) as (id0 & -> & Hid0). simpl.
    rewrite lfilter_elem. simpl. rewrite negb_true_iff, N.eqb_neq. split.
    - intros [Hin Hne]. split; [done|]. intros ->.
      destruct (pf_R_timer _ _ HR _ _ _ Hin) as (it' & _ & _ & _ & _ & Hg).
      rewrite Hinfo in Hg. simplify_eq.
    - intros [Hin Hne]. split; [done|]. intros ->.
      destruct (pf_R_timer _ _ HR _ _ _ Hin) as (it' & _ & _ & _ & _ & Hg).
      pose proof (pf_R_ids _ _ HR) as Hids.
      apply elem_of_list_lookup in Hin as [i Hi], Hid0 as [j Hj].
      assert (i = j) as -> by (eapply (NoDup_lookup _ _ _ id0 Hids);
        by rewrite list_lookup_fmap, ?Hi, ?Hj). congruence. }
  eexists. split; [done|]. split; [split|].
  - intros ty. replace (pf_queue ty _) with
      (pf_queue ty (pf_set_queue (class_qtype (it_class it))
        (key_remove (it_key it) (pf_queue (class_qtype (it_class it)) p1)) p1)) by by destruct ty.
    destruct (decide (class_qtype (it_class it) = ty)) as [<-|Hty].
    + rewrite pf_queue_set_same, Hq1, (pf_R_queue _ _ HR), of_type_mid, decide_True by done.
      simpl. rewrite key_remove_mid, of_type_app; [done|..].
      * intros H%of_type_elem. done.
      * intros H%of_type_elem. done.
    + rewrite pf_queue_set_other, Hq1, (pf_R_queue _ _ HR), of_type_mid, decide_False by done.
      simpl. by rewrite of_type_app.
  - intros x Hx. simpl.
    assert (x ∈ l1 ++ it :: l2) as Hx' by mem.
    destruct (pf_R_info _ _ HR x Hx') as (ev' & Hg & Hr').
    assert (it_key x <> it_key it) as Hne.
    { intros Heq. rewrite elem_of_app in Hx. destruct Hx as [Hx|Hx].
      - apply Hn1. rewrite <-Heq. by apply elem_of_list_fmap_1.
      - apply Hn2. rewrite <-Heq. by apply elem_of_list_fmap_1. }
    exists ev'. split.
    + rewrite info_get_del, Hi1. rewrite (proj2 (key_eqb_neq _ _)) by done. done.
    + intros Hc. destruct (Hr' Hc) as (id & -> & Hin). exists id. split; [done|].
      replace (pf_timers _) with (pf_timers p1) by by destruct (class_qtype (it_class it)).
      by apply Htm.
  - intros k x. simpl. rewrite info_get_del, Hi1. case_match eqn:E; [done|].
    intros Hg%(pf_R_info_only _ _ HR). apply key_eqb_neq in E.
    rewrite fmap_app, fmap_cons in Hg. rewrite fmap_app. mem.
  - simpl. replace (pf_timers (pf_set_queue _ _ p1)) with (pf_timers p1)
      by by destruct (class_qtype (it_class it)).
    pose proof (pf_R_ids _ _ HR) as Hids. subst p1.
    destruct (class_qtype (it_class it)), ev; simpl; try done.
    by apply nodup_fst_lfilter.
  - simpl. replace (pf_timers (pf_set_queue _ _ p1)) with (pf_timers p1)
      by by destruct (class_qtype (it_class it)).
    replace (pf_next (pf_set_queue _ _ p1)) with (pf_next p1)
      by by destruct (class_qtype (it_class it)).
    rewrite Hnx. pose proof (pf_R_next _ _ HR) as Hnext. rewrite Forall_forall in Hnext |- *.
    intros [id [k dl]] [Hin _]%Htm. by apply Hnext.
  - intros id k dl. simpl.
    replace (pf_timers (pf_set_queue _ _ p1)) with (pf_timers p1)
      by by destruct (class_qtype (it_class it)).
    intros [Hin Hne]%Htm.
    destruct (pf_R_timer _ _ HR _ _ _ Hin) as (x & Hx & Hk & Hr & Hf & Hg).
    exists x. split_and!; [|done|done|done|].
    + assert (x <> it) by congruence. mem.
    + rewrite info_get_del, Hi1. rewrite (proj2 (key_eqb_neq _ _)) by done. done.
  - simpl. by rewrite info_get_del, key_eqb_refl.
Qed.

Lemma pf_attach_R now p items it :
  it_key it ∉ (it_key <$> items) -> pf_R p items ->
  it_fresh_until it = fresh_deadline now (it_data it) ->
  it_class it = class_of K_pf now (it_unsol it) (it_fresh_until it) ->
  exists p', pf_attach now (strip it) p = Some p' /\ pf_R p' (items ++ [it]).
Proof.
  intros Hn HR Hfu Hcl. unfold pf_attach. rewrite strip_key.
  destruct (info_get (it_key it) (pf_info p)) as [x|] eqn:E.
  { exfalso. by apply (pf_R_info_only _ _ HR) in E. }
  set (tri := if e_unsol (strip it) then _ else _).
  destruct tri as [[ty ev] p1] eqn:Etri.
  assert (ty = class_qtype (it_class it) /\ pf_info p1 = pf_info p /\
     (forall ty, pf_queue ty p1 = pf_queue ty p) /\
     (if decide (it_class it = Regular)
      then ev = Some (pf_next p) /\
           pf_timers p1 = (pf_next p, (it_key it, it_fresh_until it)) :: pf_timers p /\
           pf_next p1 = (pf_next p + 1)%N
      else pf_timers p1 = pf_timers p /\ pf_next p1 = pf_next p)) as (-> & Hi1 & Hq1 & Htm).
  { subst tri. simpl in Etri. rewrite Hcl. unfold class_of.
    destruct (it_unsol it); simplify_eq; simpl.
    { done. }
    unfold is_fresh in Etri. simpl in Etri.
    destruct (decide (now <= it_fresh_until it)%Z) as [Hle|Hle].
    - rewrite (proj2 (Z.leb_le _ _) Hle) in Etri. simpl in Etri. simplify_eq. simpl.
      split_and!; [done|done|by intros []|done| |done].
      unfold fresh_deadline in Hfu. by rewrite Hfu.
    - assert ((now <=? it_fresh_until it)%Z = false) as Hf by lia.
      rewrite Hf in Etri. simpl in Etri. simplify_eq. by rewrite decide_False. }
  eexists. split; [done|]. split.
  - intros ty'. replace (pf_queue ty' _) with
      (pf_queue ty' (pf_set_queue (class_qtype (it_class it))
        (pf_queue (class_qtype (it_class it)) p1 ++ [it_key it]) p1)) by by destruct ty'.
    rewrite of_type_mid. destruct (decide (class_qtype (it_class it) = ty')) as [<-|Hty].
    + by rewrite pf_queue_set_same, Hq1, (pf_R_queue _ _ HR).
    + rewrite pf_queue_set_other by done. rewrite Hq1, (pf_R_queue _ _ HR).
      unfold of_type at 3. simpl. by rewrite app_nil_r.
  - intros x Hx. simpl. rewrite Hi1.
    replace (pf_timers (pf_set_queue _ _ p1)) with (pf_timers p1)
      by by destruct (class_qtype (it_class it)).
    apply elem_of_app in Hx as [Hx|Hx].
    + destruct (pf_R_info _ _ HR x Hx) as (ev' & Hg & Hr').
      assert (it_key x <> it_key it) as Hne.
      { intros Heq. apply Hn. rewrite <-Heq. by apply elem_of_list_fmap_1. }
      exists ev'. split.
      * rewrite info_get_cons. rewrite (proj2 (key_eqb_neq _ _)) by done. done.
      * intros Hc. destruct (Hr' Hc) as (id & -> & Hin). exists id. split; [done|].
        destruct (decide (it_class it = Regular)).
        -- destruct Htm as (_ & -> & _). mem.
        -- destruct Htm as (-> & _). done.
    + apply elem_of_list_singleton in Hx as ->. exists ev. split.
      * by rewrite info_get_cons, key_eqb_refl.
      * intros Hc. rewrite decide_True in Htm by done. destruct Htm as (-> & -> & _).
        exists (pf_next p). split; [done|]. mem.
  - intros k x. simpl. rewrite info_get_cons, Hi1. destruct (key_eqb k (it_key it)) eqn:E'.
    + intros _. apply key_eqb_eq in E' as ->. rewrite fmap_app. mem.
    + intros Hg%(pf_R_info_only _ _ HR). rewrite fmap_app. mem.
  - simpl. replace (pf_timers (pf_set_queue _ _ p1)) with (pf_timers p1)
      by by destruct (class_qtype (it_class it)).
    destruct (decide (it_class it = Regular)).
    + destruct Htm as (_ & -> & _). simpl. apply NoDup_cons. split; [|apply HR].
      intros (t & Ht & Hin)%elem_of_list_fmap. pose proof (pf_R_next _ _ HR) as Hnx.
      rewrite Forall_forall in Hnx. specialize (Hnx t Hin). simpl in Hnx. lia.
    + destruct Htm as (-> & _). apply HR.
  - simpl. replace (pf_timers (pf_set_queue _ _ p1)) with (pf_timers p1)
      by by destruct (class_qtype (it_class it)).
    replace (pf_next (pf_set_queue _ _ p1)) with (pf_next p1)
      by by destruct (class_qtype (it_class it)).
    pose proof (pf_R_next _ _ HR) as Hnx.
    destruct (decide (it_class it = Regular)).
    + destruct Htm as (_ & -> & ->). constructor; simpl; [lia|].
      eapply Forall_impl; [exact Hnx|]. simpl. lia.
    + by destruct Htm as (-> & ->).
  - intros id k dl. simpl.
    replace (pf_timers (pf_set_queue _ _ p1)) with (pf_timers p1)
      by by destruct (class_qtype (it_class it)).
    rewrite info_get_cons, Hi1. intros Hin.
    assert ((id, (k, dl)) ∈ pf_timers p \/
       (it_class it = Regular /\ ev = Some (pf_next p) /\ id = pf_next p /\ k = it_key it /\ dl = it_fresh_until it)) as [Hin'|Hnew].
    { destruct (decide (it_class it = Regular)).
      - destruct Htm as (-> & Htm & _). rewrite Htm in Hin.
        apply elem_of_cons in Hin as [?|?]; [right|by left]. naive_solver.
      - destruct Htm as (Htm & _). rewrite Htm in Hin. by left. }
    + destruct (pf_R_timer _ _ HR _ _ _ Hin') as (x & Hx & Hk & Hr & Hf & Hg).
      exists x. split_and!; [mem|done|done|done|].
      rewrite (proj2 (key_eqb_neq _ _)); [done|]. intros ->. apply Hn.
      rewrite <-Hk. by apply elem_of_list_fmap_1.
    + destruct Hnew as (Hc & -> & -> & -> & ->). exists it.
      split_and!; [mem|done|done|done|]. by rewrite key_eqb_refl, Hc.
Qed.
