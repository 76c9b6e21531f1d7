(** Refinement proof of the content store, operation by operation. *)
From Verif Require Import Lib Name_Model Name_Spec Name_Proof Packet_Model Cs_Model Cs_Spec Cs_Proof.

(** * Eviction *)
Lemma lru_evict_R limit items t :
  tbl_sorted t -> t ≡ₚ strip <$> items -> Forall (fun it => it_class it = Regular) items ->
  exists items' t', lru_evict limit (it_key <$> items) t = Some (it_key <$> items', t') /\
    evicts limit items items' /\ tbl_sorted t' /\ t' ≡ₚ strip <$> items' /\
    Forall (fun it => it_class it = Regular) items'.
Proof.
  revert t. induction items as [|it items IH]; intros t Hs Hp Hr; simpl.
  - apply Permutation_nil_r in Hp as ->. simpl.
    assert ((0 <=? limit)%N = true) as -> by lia.
    exists [], []. split_and!; [done|constructor; simpl; lia|done|done|done].
  - assert (length t = S (length items)) as Hlen.
    { rewrite Hp. by rewrite fmap_length. }
    destruct (N.of_nat (length t) <=? limit)%N eqn:E.
    + exists (it :: items), t. split_and!; [done|constructor; simpl; lia|done|done|done].
    + apply Forall_cons in Hr as [Hc Hr].
      destruct (IH (tbl_erase (it_key it) t)) as (items' & t' & He & Hev & Hs' & Hp' & Hr').
      * by apply tbl_erase_sorted.
      * eapply tbl_erase_perm; [done|by eapply items_nodup|done].
      * done.
      * exists items', t'. split_and!; [done| |done|done|done].
        apply (evicts_step limit [] it items items'); simpl; [lia|constructor| |done].
        eapply Forall_impl; [exact Hr|]. simpl. intros x ->. by rewrite Hc.
Qed.

Lemma of_type_first ty items k q :
  of_type ty items = k :: q ->
  exists l1 it l2, items = l1 ++ it :: l2 /\ it_key it = k /\
    class_qtype (it_class it) = ty /\
    Forall (fun x => class_qtype (it_class x) <> ty) l1.
Proof.
  unfold of_type. induction items as [|x items IH]; [done|].
  rewrite filter_cons. destruct (decide _) as [Hd|Hd].
  - intros [= <- _]. exists [], x, items. done.
  - intros (l1 & it & l2 & -> & Hk & Hc & HF)%IH.
    exists (x :: l1), it, l2. split_and!; [done|done|done|by constructor].
Qed.
Lemma of_type_nil ty items : of_type ty items = [] ->
  Forall (fun x => class_qtype (it_class x) <> ty) items.
Proof.
  unfold of_type. intros H%fmap_nil_inv. rewrite Forall_forall. intros x Hx Hc.
  assert (x ∈ filter (fun it => class_qtype (it_class it) = ty) items) as Hin
    by by apply elem_of_list_filter.
  rewrite H in Hin. by apply elem_of_nil in Hin.
Qed.

Lemma pf_victim_R p items : pf_R p items -> items <> [] ->
  exists l1 it l2, items = l1 ++ it :: l2 /\ pf_victim p = Some (it_key it) /\
    Forall (fun x => class_rank (it_class it) < class_rank (it_class x)) l1 /\
    Forall (fun x => class_rank (it_class it) <= class_rank (it_class x)) l2.
Proof.
  intros HR Hne. unfold pf_victim.
  pose proof (pf_R_queue _ _ HR Q_UNSOLICITED) as Hu.
  pose proof (pf_R_queue _ _ HR Q_STALE) as Hst.
  pose proof (pf_R_queue _ _ HR Q_FIFO) as Hf. simpl in Hu, Hst, Hf.
  rewrite Hu, Hst, Hf.
  destruct (of_type Q_UNSOLICITED items) as [|k q] eqn:E1;
    [destruct (of_type Q_STALE items) as [|k q] eqn:E2;
      [destruct (of_type Q_FIFO items) as [|k q] eqn:E3|]|].
  - exfalso. apply of_type_nil in E1, E2, E3. destruct items as [|x items]; [done|].
    apply Forall_cons in E1 as [H1 _], E2 as [H2 _], E3 as [H3 _].
    by destruct (it_class x).
  - apply of_type_first in E3 as (l1 & it & l2 & -> & <- & Hc & HF).
    exists l1, it, l2. split_and!; [done|done|..].
    + apply of_type_nil in E1, E2. rewrite !Forall_app in E1, E2.
      destruct E1 as [E1 _], E2 as [E2 _]. rewrite !Forall_forall in E1, E2, HF |- *.
      intros x Hx. specialize (E1 x Hx). specialize (E2 x Hx). specialize (HF x Hx).
      by destruct (it_class x).
    + apply of_type_nil in E1, E2. rewrite !Forall_app, !Forall_cons in E1, E2.
      destruct E1 as (_ & _ & E1), E2 as (_ & _ & E2). rewrite !Forall_forall in E1, E2 |- *.
      intros x Hx. specialize (E1 x Hx). specialize (E2 x Hx).
      destruct (it_class it), (it_class x); simpl in *; try done; lia.
  - apply of_type_first in E2 as (l1 & it & l2 & -> & <- & Hc & HF).
    exists l1, it, l2. apply of_type_nil in E1.
    rewrite !Forall_app, !Forall_cons in E1. destruct E1 as (E1 & _ & E1').
    split_and!; [done|done|..]; rewrite !Forall_forall in *.
    + intros x Hx. specialize (E1 x Hx). specialize (HF x Hx).
      destruct (it_class it), (it_class x); simpl in *; try done; lia.
    + intros x Hx. specialize (E1' x Hx).
      destruct (it_class it), (it_class x); simpl in *; try done; lia.
  - apply of_type_first in E1 as (l1 & it & l2 & -> & <- & Hc & HF).
    exists l1, it, l2. split_and!; [done|done|..]; rewrite !Forall_forall in *.
    + intros x Hx. specialize (HF x Hx).
      destruct (it_class it), (it_class x); simpl in *; try done; lia.
    + intros x Hx. destruct (it_class it); simpl in *; try done; lia.
Qed.

Lemma strip_mid_perm l1 it l2 :
  strip <$> l1 ++ it :: l2 ≡ₚ strip <$> it :: (l1 ++ l2).
Proof. apply fmap_Permutation. by rewrite Permutation_middle. Qed.
Lemma nodup_mid_cons l1 it l2 : NoDup (it_key <$> l1 ++ it :: l2) ->
  NoDup (it_key <$> it :: (l1 ++ l2)).
Proof. intros H. by rewrite Permutation_middle. Qed.

Lemma pf_evict_R fuel limit p items t :
  length items <= fuel ->
  tbl_sorted t -> t ≡ₚ strip <$> items -> pf_R p items ->
  exists items' p' t', pf_evict fuel limit p t = Some (p', t') /\
    evicts limit items items' /\ tbl_sorted t' /\ t' ≡ₚ strip <$> items' /\ pf_R p' items'.
Proof.
  revert p items t. induction fuel as [|fuel IH]; intros p items t Hfuel Hs Hp HR; simpl.
  - destruct items; [|simpl in Hfuel; lia]. apply Permutation_nil_r in Hp as ->. simpl.
    assert ((0 <=? limit)%N = true) as -> by lia.
    exists [], p, []. split_and!; [done|constructor; simpl; lia|done|done|done].
  - assert (length t = length items) as Hlen by (rewrite Hp; by rewrite fmap_length).
    destruct (N.of_nat (length t) <=? limit)%N eqn:E.
    { exists items, p, t. split_and!; [done|constructor; simpl; lia|done|done|done]. }
    assert (items <> []) as Hne by (intros ->; simpl in *; lia).
    destruct (pf_victim_R _ _ HR Hne) as (l1 & it & l2 & -> & Hv & Hl1 & Hl2).
    rewrite Hv. pose proof (items_nodup _ _ Hs Hp) as Hnd.
    destruct (pf_detach_R _ _ _ _ Hnd HR) as (p1 & Hd & HR1 & _). rewrite Hd.
    destruct (IH p1 (l1 ++ l2) (tbl_erase (it_key it) t)) as (items' & p' & t' & He & Hev & Hs' & Hp' & HR').
    + rewrite app_length in *. simpl in *. lia.
    + by apply tbl_erase_sorted.
    + eapply tbl_erase_perm; [done|by apply nodup_mid_cons|]. by rewrite <-strip_mid_perm.
    + done.
    + exists items', p', t'. split_and!; [done| |done|done|done].
      eapply evicts_step; [lia|done|done|done].
Qed.

Lemma evict_entries_R s a : R s a -> exists l' s',
  evict_entries s = Some s' /\ evicts (a_limit a) (a_items a) l' /\ R s' (a_with a l').
Proof.
  intros [Hl Ha Hv Hs Hi Hp]. unfold evict_entries. rewrite Hl.
  destruct (cs_policy s) as [q|p].
  - destruct Hp as (Hk & -> & Hr).
    destruct (lru_evict_R (a_limit a) _ _ Hs Hi Hr) as (l' & t' & -> & Hev & Hs' & Hp' & Hr').
    eexists l', _. split; [done|]. split; [done|]. by split.
  - destruct Hp as (Hk & HR).
    destruct (pf_evict_R (length (cs_table s)) (a_limit a) p (a_items a) (cs_table s))
      as (l' & p' & t' & -> & Hev & Hs' & Hp' & HR'); [|done..|].
    { rewrite Hi, fmap_length. done. }
    eexists l', _. split; [done|]. split; [done|]. by split.
Qed.

(** * Limits and configuration *)
Lemma cs_set_limit_R limit s a : R s a ->
  exists s' a', cs_set_limit limit s = Some s' /\ a_set_limit limit a a' /\ R s' a'.
Proof.
  intros [Hl Ha Hv Hs Hi Hp]. unfold cs_set_limit.
  destruct (evict_entries_R (Cs (cs_table s) (cs_policy s) limit (cs_admit s) (cs_serve s))
    (Acs (a_items a) (a_kind a) limit (a_admit a) (a_serve a))) as (l' & s' & He & Hev & HR).
  { by split. }
  exists s', (Acs l' (a_kind a) limit (a_admit a) (a_serve a)). split; [done|]. split; [|done].
  by exists l'.
Qed.

Lemma cs_configure_R limit k s a : R s a ->
  exists s' a', cs_configure limit k s = Some s' /\ a_step a (OConfigure limit k) a' RNone /\ R s' a'.
Proof.
  intros HR. unfold cs_configure.
  destruct (cs_set_limit_R limit s a HR) as (s1 & a1 & -> & Hset & HR1).
  destruct (cs_table s1) as [|e t] eqn:Et.
  - assert (a_items a1 = []) as Hit.
    { pose proof (R_items _ _ HR1) as Hp. rewrite Et in Hp.
      apply Permutation_nil_l in Hp. symmetry in Hp. by apply fmap_nil_inv in Hp. }
    destruct k as [k|].
    + unfold cs_set_policy, cs_set_limit, evict_entries. simpl. rewrite Et.
      exists (Cs [] (policy_new k) (cs_limit s1) (cs_admit s1) (cs_serve s1)),
             (Acs [] k (a_limit a1) (a_admit a1) (a_serve a1)). split; [|split].
      * destruct k; simpl; (assert ((0 <=? cs_limit s1)%N = true) as -> by lia); done.
      * eapply a_step_configure; [done|]. by rewrite Hit.
      * split; simpl; [apply HR1|apply HR1|apply HR1|constructor|done|].
        destruct k; simpl; [done|]. split; [done|]. split; simpl; try done.
        -- by intros [].
        -- intros it Hx. by apply elem_of_nil in Hx.
        -- constructor.
        -- intros ? ? ? Hx. by apply elem_of_nil in Hx.
    + exists s1, a1. split; [done|]. split; [|done].
      eapply a_step_configure; [done|]. by rewrite Hit.
  - exists s1, a1. split; [done|]. split; [|done].
    eapply a_step_configure; [done|].
    assert (a_items a1 <> []) as Hit.
    { intros Hit. pose proof (R_items _ _ HR1) as Hp. rewrite Et, Hit in Hp.
      by apply Permutation_nil_r in Hp. }
    by destruct (a_items a1).
Qed.

Lemma cs_change_config_R cap ad se s a : R s a ->
  exists s' a', cs_change_config cap ad se s = Some s' /\
    a_step a (OConfig cap ad se) a' RNone /\ R s' a'.
Proof.
  intros HR. unfold cs_change_config.
  assert (exists s1 a1, (match cap with Some c => cs_set_limit c s | None => Some s end) = Some s1 /\
    (match cap with Some c => a_set_limit c a a1 | None => a1 = a end) /\ R s1 a1)
    as (s1 & a1 & -> & Hset & HR1).
  { destruct cap as [c|]; [by apply cs_set_limit_R|by exists s, a]. }
  eexists _, _. split; [done|]. split; [by econstructor|].
  destruct HR1 as [Hl Ha Hv Hs Hi Hp]. split; simpl; try done; by rewrite ?Ha, ?Hv.
Qed.

(** * Insertion *)
Lemma split_key (l : list item) k : k ∈ (it_key <$> l) ->
  exists l1 it l2, l = l1 ++ it :: l2 /\ it_key it = k.
Proof.
  intros (it & -> & Hin)%elem_of_list_fmap.
  apply elem_of_list_split in Hin as (l1 & l2 & ->). eauto.
Qed.

Lemma tbl_perm_keys t items : t ≡ₚ strip <$> items -> e_key <$> t ≡ₚ it_key <$> items.
Proof. intros H. rewrite H, <-list_fmap_compose. done. Qed.

Lemma lru_insert_new k q : k ∉ q -> lru_insert_to_queue k true q = Some (q ++ [k]).
Proof.
  intros H. unfold lru_insert_to_queue. by rewrite (proj2 (key_mem_false k q) H).
Qed.
Lemma lru_insert_old k q1 q2 : k ∉ q1 -> k ∉ q2 ->
  lru_insert_to_queue k false (q1 ++ k :: q2) = Some (q1 ++ q2 ++ [k]).
Proof.
  intros H1 H2. unfold lru_insert_to_queue.
  assert (key_mem k (q1 ++ k :: q2) = true) as -> by (apply key_mem_spec; mem).
  simpl. rewrite key_remove_mid by done. by rewrite app_assoc.
Qed.

Lemma cs_insert_R now d u s a : R s a ->
  exists s' a', cs_insert now d u s = Some s' /\ a_insert now d u a a' /\ R s' a'.
Proof.
  intros HR. pose proof HR as [Hl Ha Hv Hs Hi Hp]. unfold cs_insert.
  destruct (negb (cs_admit s) || (cs_limit s =? 0)%N) eqn:E1.
  { exists s, a. split; [done|]. split; [|done]. constructor.
    apply orb_true_iff in E1 as [E1|E1].
    - apply negb_true_iff in E1. left. congruence.
    - apply N.eqb_eq in E1. right; left. congruence. }
  apply orb_false_iff in E1 as [E1%negb_false_iff E2%N.eqb_neq].
  destruct (d_nocache d) eqn:E3.
  { exists s, a. split; [done|]. split; [|done]. constructor. auto. }
  destruct (tbl_emplace (mk_entry now d u) (cs_table s)) as [t1 b] eqn:Et.
  pose proof (R_nodup _ _ HR) as Hnd.
  destruct (tbl_emplace_spec _ _ _ _ Hs Et) as [(-> & Hn & Hs1 & Hp1)|(-> & Hin & ->)].
  - (* new *)
    rewrite (tbl_perm_keys _ _ Hi) in Hn. change (e_key (mk_entry now d u)) with (data_key d) in Hn.
    set (it := Item d u (fresh_deadline now d) (class_of (a_kind a) now u (fresh_deadline now d))).
    assert (mk_entry now d u = strip it) as Hmk by done. rewrite Hmk in Hp1.
    assert (NoDup (it_key <$> (it :: a_items a))) as Hnd1.
    { simpl. apply NoDup_cons. split; [exact Hn|done]. }
    rewrite Hi in Hp1.
    assert (tbl_update (data_key d) (update_fresh_until now) t1 ≡ₚ strip <$> (it :: a_items a)) as Hp2.
    { by apply (tbl_update_perm _ _ it (a_items a) it Hnd1 Hp1). }
    set (t2 := tbl_update (data_key d) (update_fresh_until now) t1) in *.
    assert (tbl_sorted t2) as Hs2 by by apply tbl_update_sorted.
    replace (tbl_get (data_key d) t2) with (Some (strip it)) by (symmetry; exact (tbl_get_perm t2 it (a_items a) Hnd1 Hp2)).
    assert (exists s2, after_insert now (strip it) (cs_with s t2 (cs_policy s)) = evict_entries s2 /\
              R s2 (a_with a (a_items a ++ [it]))) as (s2 & -> & HR2).
    { unfold after_insert. simpl.
      assert (t2 ≡ₚ strip <$> (a_items a ++ [it])) as Hp3.
      { rewrite Hp2, !fmap_app. simpl. by rewrite <-Permutation_cons_append. }
      destruct (cs_policy s) as [q|p].
      - destruct Hp as (Hk & -> & Hr). change (e_key (strip it)) with (data_key d).
        rewrite lru_insert_new by done. eexists. split; [done|].
        split; simpl; try done. split; [done|]. split; [by rewrite fmap_app|].
        apply Forall_app. split; [done|]. constructor; [|done]. simpl. by rewrite Hk.
      - destruct Hp as (Hk & HRp).
        destruct (pf_attach_R now p (a_items a) it Hn HRp) as (p' & -> & HRp').
        { done. } { simpl. by rewrite Hk. }
        eexists. split; [done|]. split; simpl; try done. }
    destruct (evict_entries_R _ _ HR2) as (l' & s' & -> & Hev & HR3).
    exists s', (a_with a l'). split; [done|]. split; [|done].
    apply a_insert_new; [congruence|rewrite <-Hl; lia|done| |exact Hev].
    intros x Hx Hsame%same_packet_key. apply Hn. rewrite <-Hsame.
    by apply (elem_of_list_fmap_1 it_key).
  - (* refresh *)
    rewrite (tbl_perm_keys _ _ Hi) in Hin. change (e_key (mk_entry now d u)) with (data_key d) in Hin.
    apply split_key in Hin as (l1 & it & l2 & Hitems & Hkey).
    set (dl := fresh_deadline now (it_data it)).
    set (u' := it_unsol it && u).
    set (it1 := Item (it_data it) (it_unsol it) dl (it_class it)).
    set (it2 := Item (it_data it) u' dl (class_of (a_kind a) now u' dl)).
    rewrite Hitems in Hi, Hnd. rewrite strip_mid_perm in Hi.
    pose proof (nodup_mid_cons _ _ _ Hnd) as Hnd0.
    rewrite <-Hkey.
    assert (tbl_update (it_key it) (update_fresh_until now) (cs_table s) ≡ₚ strip <$> (it1 :: l1 ++ l2)) as Hp1.
    { by apply tbl_update_perm. }
    set (t2 := tbl_update (it_key it) _ (cs_table s)) in *.
    assert (tbl_sorted t2) as Hs2 by by apply tbl_update_sorted.
    set (g := fun e => if e_unsol e && negb u then clear_unsolicited e else e).
    assert (forall e, e_key (g e) = e_key e) as Hg by (intros e; unfold g; by destruct (e_unsol e && negb u)).
    assert (tbl_update (it_key it) g t2 ≡ₚ strip <$> (it2 :: l1 ++ l2)) as Hp2.
    { change (it_key it) with (it_key it1). apply tbl_update_perm; [done|done|].
      unfold g, strip; simpl. subst u'. destruct (it_unsol it), u; done. }
    set (t3 := tbl_update (it_key it) g t2) in *.
    assert (tbl_sorted t3) as Hs3 by by apply tbl_update_sorted.
    change (it_key it) with (it_key it2). rewrite (tbl_get_perm t3 it2 (l1 ++ l2)) by done.
    pose proof (nodup_mid _ _ _ Hnd) as (Hn1 & Hn2 & _).
    assert (t3 ≡ₚ strip <$> (l1 ++ l2 ++ [it2])) as Hp3.
    { rewrite Hp2, app_assoc, (fmap_app _ (l1 ++ l2)). simpl. by rewrite <-Permutation_cons_append. }
    assert (exists s', after_refresh now (strip it2) (cs_with s t3 (cs_policy s)) = Some s' /\
              R s' (a_with a (l1 ++ l2 ++ [it2]))) as (s' & -> & HR').
    { unfold after_refresh. simpl. change (e_key (strip it2)) with (it_key it).
      destruct (cs_policy s) as [q|p].
      - destruct Hp as (Hk & -> & Hr). rewrite Hitems, fmap_app, fmap_cons.
        rewrite lru_insert_old by done. eexists. split; [done|].
        split; simpl; try done. split; [done|]. split; [by rewrite !fmap_app|].
        rewrite Hitems, !Forall_app, Forall_cons in Hr. rewrite !Forall_app.
        split_and!; [apply Hr|apply Hr|]. constructor; [|done]. simpl. by rewrite Hk.
      - destruct Hp as (Hk & HRp). rewrite Hitems in HRp.
        destruct (pf_detach_R _ _ _ _ Hnd HRp) as (p1 & -> & HR1 & _).
        destruct (pf_attach_R now p1 (l1 ++ l2) it2) as (p2 & -> & HR2).
        { rewrite fmap_app. change (it_key it2) with (it_key it). by rewrite not_elem_of_app. }
        { done. } { done. } { simpl. by rewrite Hk. }
        eexists. split; [done|]. split; simpl; try done. by rewrite app_assoc. }
    eexists s', _. split; [done|]. split; [|exact HR'].
    apply a_insert_refresh; [congruence|rewrite <-Hl; lia|done|done|].
    by apply same_packet_key.
Qed.

(** * Freshness timer *)
Lemma pf_timer_R now ev p l s :
  NoDup (it_key <$> l) -> pf_R p l -> cs_policy s = P_pf p ->
  cs_timer now ev s = Some s \/
  exists l1 it l2 p', l = l1 ++ it :: l2 /\ it_class it = Regular /\
    (it_fresh_until it <= now)%Z /\
    cs_timer now ev s = Some (cs_with s (cs_table s) (P_pf p')) /\
    pf_R p' (l1 ++ l2 ++ [Item (it_data it) (it_unsol it) (it_fresh_until it) Stale]).
Proof.
  intros Hnd HR Hpol. unfold cs_timer. rewrite Hpol.
  destruct (List.find _ (pf_timers p)) as [[id [k dl]]|] eqn:E; [|by left].
  apply find_some_elem in E as [Hin Hid]. simpl in Hid. apply N.eqb_eq in Hid as ->.
  destruct (dl <=? now)%Z eqn:Edl; [|by left]. right.
  destruct (pf_R_timer _ _ HR _ _ _ Hin) as (it & Hit & Hk & Hr & Hf & Hg).
  apply elem_of_list_split in Hit as (l1 & l2 & ->).
  pose proof (nodup_mid _ _ _ Hnd) as (Hn1 & Hn2 & Hnd').
  set (it2 := Item (it_data it) (it_unsol it) (it_fresh_until it) Stale).
  set (ts := List.filter (fun t => negb (t.1 =? ev)%N) (pf_timers p)).
  unfold pf_move_to_stale. simpl. rewrite Hg.
  set (p' := pf_set_info _ _).
  exists l1, it, l2, p'. split_and!; [done|done|lia|done|].
  assert (forall id k dl, (id, (k, dl)) ∈ ts <-> (id, (k, dl)) ∈ pf_timers p /\ id <> ev) as Hts.
  { intros id' k' dl'. unfold ts. rewrite lfilter_elem. simpl. by rewrite negb_true_iff, N.eqb_neq. }
  assert (forall x, x ∈ l1 ++ l2 -> it_key x <> k) as Hother.
  { intros x Hx Heq. apply elem_of_app in Hx as [Hx|Hx].
    - apply Hn1. rewrite Hk, <-Heq. by apply elem_of_list_fmap_1.
    - apply Hn2. rewrite Hk, <-Heq. by apply elem_of_list_fmap_1. }
  split.
  - intros ty. rewrite app_assoc, of_type_app, of_type_app.
    pose proof (pf_R_queue _ _ HR ty) as Hq. rewrite of_type_mid in Hq.
    destruct ty; simpl in *.
    + rewrite Hq, Hr. simpl. unfold of_type at 5. simpl. by rewrite app_nil_r.
    + rewrite Hq, Hr. simpl. subst k. done.
    + rewrite Hq, Hr. simpl. subst k. unfold of_type at 3. simpl. rewrite app_nil_r.
      apply key_remove_mid; intros ?%of_type_elem; done.
  - intros x Hx. simpl. rewrite info_get_cons.
    rewrite app_assoc in Hx. apply elem_of_app in Hx as [Hx|Hx].
    + rewrite info_get_del.
      assert (key_eqb (it_key x) k = false) as -> by (apply key_eqb_neq; auto).
      assert (key_eqb k (it_key x) = false) as -> by (apply key_eqb_neq; intros ?; by eapply Hother).
      destruct (pf_R_info _ _ HR x) as (ev' & Hg' & Hr'); [mem|].
      exists ev'. split; [done|]. intros Hc. destruct (Hr' Hc) as (id & -> & Hin').
      exists id. split; [done|]. apply Hts. split; [done|]. intros ->.
      destruct (pf_R_timer _ _ HR _ _ _ Hin') as (x' & _ & _ & _ & _ & Hg'').
      pose proof (pf_R_ids _ _ HR) as Hids.
      apply elem_of_list_lookup in Hin as [i Hi], Hin' as [j Hj].
      assert (i = j) as -> by (eapply (NoDup_lookup _ _ _ ev Hids);
        by rewrite list_lookup_fmap, ?Hi, ?Hj).
      rewrite Hi in Hj. injection Hj as Hj _. by apply (Hother x Hx).
    + apply elem_of_list_singleton in Hx as ->. exists (Some ev).
      split; [|done]. match goal with |- context [key_eqb ?a k] => assert (key_eqb a k = true) as -> by (by apply key_eqb_eq) end. done.
  - intros k' x. simpl. rewrite info_get_cons, info_get_del.
    destruct (key_eqb k' k) eqn:E'.
    + intros _. apply key_eqb_eq in E' as ->. rewrite !fmap_app. simpl.
      change (it_key it2) with (it_key it). subst k. mem.
    + case_match; [done|]. intros Hg'%(pf_R_info_only _ _ HR). apply key_eqb_neq in E'.
      rewrite fmap_app, fmap_cons in Hg'. rewrite !fmap_app. subst k. mem.
  - simpl. apply nodup_fst_lfilter, HR.
  - simpl. pose proof (pf_R_next _ _ HR) as Hnx. rewrite Forall_forall in Hnx |- *.
    intros [id' [k' dl']] [Hin' _]%Hts. by apply Hnx.
  - intros id' k' dl'. simpl. rewrite Hts. intros [Hin' Hne].
    destruct (pf_R_timer _ _ HR _ _ _ Hin') as (x & Hx & Hkx & Hrx & Hfx & Hgx).
    assert (x <> it) as Hxi.
    { intros ->. rewrite <-Hkx, Hk, Hg in Hgx. congruence. }
    assert (x ∈ l1 ++ l2) as Hx' by mem.
    exists x. split_and!; [mem|done|done|done|].
    rewrite info_get_cons, info_get_del.
    assert (key_eqb k' k = false) as -> by (apply key_eqb_neq; subst k'; auto).
    assert (key_eqb k k' = false) as -> by (apply key_eqb_neq; subst k'; intros ?; by eapply Hother).
    done.
Qed.

Lemma cs_timer_R now ev s a : R s a ->
  exists s' a', cs_timer now ev s = Some s' /\ a_timer now a a' /\ R s' a'.
Proof.
  intros HR. pose proof HR as [Hl Ha Hv Hs Hi Hp].
  destruct (cs_policy s) as [q|p] eqn:Epol.
  - exists s, a. split; [unfold cs_timer; by rewrite Epol|]. split; [constructor|done].
  - destruct Hp as (Hk & HRp).
    destruct (pf_timer_R now ev p (a_items a) s (R_nodup _ _ HR) HRp Epol)
      as [Heq|(l1 & it & l2 & p' & Hit & Hc & Hf & Heq & HRp')].
    + exists s, a. split; [done|]. split; [constructor|done].
    + eexists _, _. split; [done|]. split; [by eapply a_timer_stale|].
      split; simpl; try done.
      rewrite Hi, Hit, strip_mid_perm, app_assoc, (fmap_app _ (l1 ++ l2)). simpl.
      by rewrite <-Permutation_cons_append.
Qed.
