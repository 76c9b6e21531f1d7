(** Histories of the content store. *)
From Verif Require Import Lib Name_Model Name_Spec Name_Proof Packet_Model Cs_Model Cs_Spec Cs_Proof Cs_Refine Cs_Find.

Lemma cs_mgmt_erase_R now p count s a : R s a -> wf_items a -> name_valid p ->
  exists s' a' n more, cs_mgmt_erase now p count s = Some (s', (n, more)) /\
    a_mgmt_erase now p count a a' n more /\ R s' a' /\
    (forall it, it ∈ a_items a' -> it ∈ a_items a).
Proof.
  intros HR Hwf Hv. unfold cs_mgmt_erase, a_mgmt_erase.
  set (w := default SIZE_MAX count).
  assert (match count with Some c => c | None => (2^64 - 1)%N end = w) as -> by by destruct count.
  destruct (cs_erase_R p (N.min w ERASE_LIMIT) s a HR Hwf Hv) as (s1 & a1 & n & -> & He & HR1 & Hsub).
  assert (wf_items a1) as Hwf1.
  { unfold wf_items in *. rewrite Forall_forall in *. auto. }
  unfold ERASE_LIMIT in *.
  destruct ((n =? 256)%N && (256 <? w)%N) eqn:E.
  - destruct (cs_find_R now (prefix_interest p) s1 a1 HR1 Hwf1) as (s2 & a2 & r & -> & Hf & HR2 & Hsame).
    exists s2, a2, n, (match r with Some _ => true | None => false end).
    split; [by destruct r|]. split; [|split; [done|]].
    + exists a1. split; [done|]. split; [|lia]. exists r. done.
    + intros it Hit. apply Hsub. by apply Hsame.
  - exists s1, a1, n, false. split; [done|]. split; [|done]. exists a1. split; [done|].
    split; [lia|done].
Qed.

Lemma evicts_elem limit l l' it : evicts limit l l' -> it ∈ l' -> it ∈ l.
Proof. induction 1 as [|l1 x l2 l' _ _ _ _ IH]; [done|]. intros Hit%IH. mem. Qed.

Lemma a_set_limit_elem limit a a' it : a_set_limit limit a a' -> it ∈ a_items a' -> it ∈ a_items a.
Proof. intros (l' & He & ->). simpl. exact (evicts_elem _ _ _ _ He). Qed.

Lemma cs_step_R s a o : R s a -> wf_items a -> op_wf o ->
  exists s' r a', cs_step s o = Some (s', r) /\ a_step a o a' r /\ R s' a' /\ wf_items a'.
Proof.
  intros HR Hwf Ho. unfold wf_items in *. rewrite Forall_forall in Hwf. setoid_rewrite Forall_forall.
  assert (wf_items a) as Hwf0. { unfold wf_items. by rewrite Forall_forall. }
  destruct o as [now d u|p limit|now i|limit|limit k|cap ad se|now ev|now p count]; simpl.
  - destruct (cs_insert_R now d u s a HR) as (s' & a' & -> & Hi & HR'). eexists _, _, _.
    split; [done|]. split; [by constructor|]. split; [done|].
    intros it Hit. simpl in Ho. inversion Hi; subst; simpl in *; [by apply Hwf|..].
    + match goal with H : a_items a = _ |- _ => rewrite H in Hwf end.
      rewrite !elem_of_app, elem_of_list_singleton in Hit.
      destruct Hit as [Hit|[Hit| ->]]; [apply Hwf; mem..|]. simpl. apply Hwf. mem.
    + match goal with H : evicts _ _ _ |- _ => eapply evicts_elem in H; [|exact Hit] end.
      rewrite elem_of_app, elem_of_list_singleton in *.
      match goal with H : _ \/ _ |- _ => destruct H as [?| ->] end; [by apply Hwf|done].
  - destruct (cs_erase_R p limit s a HR Hwf0 Ho) as (s' & a' & n & -> & He & HR' & Hsub).
    eexists _, _, _. split; [done|]. split; [by constructor|]. split; [done|]. auto.
  - destruct (cs_find_R now i s a HR Hwf0) as (s' & a' & r & -> & Hf & HR' & Hsub).
    eexists _, _, _. split; [done|]. split; [by constructor|]. split; [done|].
    intros it Hit. apply Hwf. by apply Hsub.
  - destruct (cs_set_limit_R limit s a HR) as (s' & a' & -> & Hl & HR'). eexists _, _, _.
    split; [done|]. split; [by constructor|]. split; [done|].
    intros it Hit. apply Hwf. by eapply a_set_limit_elem.
  - destruct (cs_configure_R limit k s a HR) as (s' & a' & -> & Hst & HR'). eexists _, _, _.
    split; [done|]. split; [exact Hst|]. split; [done|].
    inversion Hst; subst. intros it Hit.
    apply Hwf. eapply a_set_limit_elem; [done|]. destruct (a_items a1) eqn:E; [|by rewrite E in Hit].
    destruct k; simpl in Hit; [done|]. by rewrite E in Hit.
  - destruct (cs_change_config_R cap ad se s a HR) as (s' & a' & -> & Hst & HR'). eexists _, _, _.
    split; [done|]. split; [exact Hst|]. split; [done|].
    inversion Hst; subst. intros it Hit. apply Hwf. simpl in Hit.
    destruct cap; [by eapply a_set_limit_elem|]. by subst.
  - destruct (cs_timer_R now ev s a HR) as (s' & a' & -> & Ht & HR'). eexists _, _, _.
    split; [done|]. split; [by constructor|]. split; [done|].
    intros it Hit. inversion Ht; subst; simpl in *; [by apply Hwf|].
    match goal with H : a_items a = _ |- _ => rewrite H in Hwf end.
    rewrite !elem_of_app, elem_of_list_singleton in Hit.
    destruct Hit as [Hit|[Hit| ->]]; [apply Hwf; mem..|]. simpl. apply Hwf. mem.
  - destruct (cs_mgmt_erase_R now p count s a HR Hwf0 Ho) as (s' & a' & n & more & -> & Hm & HR' & Hsub).
    eexists _, _, _. split; [done|]. split; [by constructor|]. split; [done|]. auto.
Qed.

Lemma R_init limit : R (cs_init limit) (acs_init limit).
Proof. split; try done; [constructor|]. simpl. split_and!; [done|done|constructor]. Qed.

Lemma cs_run_R s a ops : R s a -> wf_items a -> Forall op_wf ops ->
  exists s' rs a', cs_run s ops = Some (s', rs) /\ a_run a ops a' rs /\ R s' a' /\ wf_items a'.
Proof.
  revert s a. induction ops as [|o ops IH]; intros s a HR Hwf Ho.
  - exists s, [], a. split; [done|]. split; [constructor|done].
  - apply Forall_cons in Ho as [Ho Hos].
    destruct (cs_step_R s a o HR Hwf Ho) as (s1 & r & a1 & Hs & Ha & HR1 & Hwf1).
    destruct (IH s1 a1 HR1 Hwf1 Hos) as (s2 & rs & a2 & Hs2 & Ha2 & HR2 & Hwf2).
    exists s2, (r :: rs), a2. simpl. rewrite Hs, Hs2. split; [done|].
    split; [by econstructor|done].
Qed.

Lemma cs_run_app s ops1 ops2 : cs_run s (ops1 ++ ops2) =
  match cs_run s ops1 with
  | None => None
  | Some (s1, r1) => match cs_run s1 ops2 with
                     | None => None
                     | Some (s2, r2) => Some (s2, r1 ++ r2)
                     end
  end.
Proof.
  revert s. induction ops1 as [|o ops1 IH]; intros s; simpl.
  - by destruct (cs_run s ops2) as [[]|].
  - destruct (cs_step s o) as [[s1 r]|]; [|done]. rewrite IH.
    destruct (cs_run s1 ops1) as [[s2 rs]|]; [|done]. by destruct (cs_run s2 ops2) as [[]|].
Qed.

(** * Steps without any assumption on the packets *)
Definition fits (a : acs) : Prop := (N.of_nat (length (a_items a)) <= a_limit a)%N.

Lemma evicts_fits limit l l' : evicts limit l l' -> (N.of_nat (length l') <= limit)%N.
Proof. by induction 1. Qed.
Lemma set_limit_fits limit a a' : a_set_limit limit a a' -> fits a'.
Proof. intros (l' & He & ->). by apply evicts_fits in He. Qed.

Lemma cs_find_weak now i s a : R s a -> fits a ->
  exists s' r a', cs_find now i s = Some (s', r) /\ R s' a' /\ fits a' /\ a_limit a' = a_limit a.
Proof.
  intros HR Hfit. pose proof HR as [Hl Ha Hv Hs Hi Hp]. unfold cs_find.
  destruct (negb (cs_serve s) || (cs_limit s =? 0)%N) eqn:E1; [by eexists _, _, _|].
  destruct (List.find _ _) as [e|] eqn:Ef; [|by eexists _, _, _].
  apply find_some_elem in Ef as [Hin _].
  assert (e ∈ cs_table s) as Hin'.
  { eapply sublist_elem_of; [|exact Hin]. unfold range_entries.
    etrans; [apply sublist_take|apply sublist_drop]. }
  rewrite Hi in Hin'. apply elem_of_list_fmap in Hin' as (it & -> & Hit).
  change (e_key (strip it)) with (it_key it). unfold before_use.
  pose proof Hit as Hit0. apply elem_of_list_split in Hit as (l1 & l2 & Hitems).
  pose proof (R_nodup _ _ HR) as Hnd. rewrite Hitems in Hnd.
  pose proof (nodup_mid _ _ _ Hnd) as (Hn1 & Hn2 & _).
  destruct (cs_policy s) as [q|p].
  - destruct Hp as (Hk & -> & Hr). rewrite Hitems, fmap_app, fmap_cons, lru_insert_old by done.
    eexists _, _, (a_with a (l1 ++ l2 ++ [it])). split; [done|]. split.
    + split; simpl; try done.
      * rewrite Hi, Hitems. apply fmap_Permutation. rewrite app_assoc, <-Permutation_cons_append.
        by rewrite Permutation_middle.
      * split; [done|]. split; [by rewrite !fmap_app|].
        rewrite Hitems in Hr. rewrite !Forall_app, Forall_cons in Hr.
        rewrite !Forall_app, Forall_singleton. naive_solver.
    + split; [|done]. unfold fits in *. simpl. rewrite Hitems in Hfit.
      rewrite !app_length in *. simpl in *. lia.
  - destruct Hp as (Hk & HRp). destruct (pf_R_info _ _ HRp it Hit0) as (ev & -> & _).
    by eexists _, _, _.
Qed.

Lemma cs_erase_weak p limit s a : R s a -> fits a ->
  exists s' n a', cs_erase p limit s = Some (s', n) /\ R s' a' /\ fits a' /\ a_limit a' = a_limit a.
Proof.
  intros HR Hfit. pose proof HR as [Hl Ha Hv Hs Hi Hp]. unfold cs_erase.
  rewrite range_entries_filter by done.
  destruct (erase_loop_R (List.filter (in_range p) (cs_table s)) limit 0 s a HR) as (s' & -> & HR').
  { apply tbl_sorted_nodup. by apply lfilter_sorted. }
  { intros e [He _]%lfilter_elem. rewrite Hi in He. apply elem_of_list_fmap in He as (it & -> & ?).
    rewrite strip_key. by apply elem_of_list_fmap_1. }
  { lia. }
  eexists _, _, _. split; [done|]. split; [exact HR'|]. split; [|done].
  unfold fits in *. simpl. etrans; [|exact Hfit].
  pose proof (sublist_length _ _ (lfilter_sublist (fun x => negb (key_mem (it_key x)
    (take (length (List.filter (in_range p) (cs_table s)) `min` N.to_nat (limit - 0))
       (e_key <$> List.filter (in_range p) (cs_table s))))) (a_items a))).
  unfold drop_keys. lia.
Qed.

Lemma cs_step_weak s a o : R s a -> fits a ->
  exists s' r a', cs_step s o = Some (s', r) /\ R s' a' /\ fits a' /\
    a_limit a' = new_limit (a_limit a) o.
Proof.
  intros HR Hfit.
  destruct o as [now d u|p limit|now i|limit|limit k|cap ad se|now ev|now p count]; simpl.
  - destruct (cs_insert_R now d u s a HR) as (s' & a' & -> & Hi & HR'). eexists _, _, a'.
    split; [done|]. split; [done|]. inversion Hi; subst; [done|..].
    + split; [|done]. unfold fits in *. simpl.
      match goal with H : a_items a = _ |- _ => rewrite H in Hfit end.
      rewrite !app_length in *. simpl in *. lia.
    + split; [|done]. by eapply evicts_fits.
  - destruct (cs_erase_weak p limit s a HR Hfit) as (s' & n & a' & -> & ? & ? & ?). by eexists _, _, a'.
  - destruct (cs_find_weak now i s a HR Hfit) as (s' & n & a' & -> & ? & ? & ?). by eexists _, _, a'.
  - destruct (cs_set_limit_R limit s a HR) as (s' & a' & -> & Hl & HR'). eexists _, _, a'.
    split; [done|]. split; [done|]. split; [by eapply set_limit_fits|]. destruct Hl as (? & _ & ->). done.
  - destruct (cs_configure_R limit k s a HR) as (s' & a' & -> & Hst & HR'). eexists _, _, a'.
    split; [done|]. split; [done|]. inversion Hst; subst.
    match goal with H : a_set_limit _ _ _ |- _ => pose proof (set_limit_fits _ _ _ H); destruct H as (? & _ & ->) end.
    simpl. destruct x; [destruct k|]; done.
  - destruct (cs_change_config_R cap ad se s a HR) as (s' & a' & -> & Hst & HR'). eexists _, _, a'.
    split; [done|]. split; [done|]. inversion Hst; subst. unfold fits in *. simpl.
    destruct cap as [c|]; [|by subst].
    match goal with H : a_set_limit _ _ _ |- _ => pose proof (set_limit_fits _ _ _ H); destruct H as (? & _ & ->) end.
    done.
  - destruct (cs_timer_R now ev s a HR) as (s' & a' & -> & Ht & HR'). eexists _, _, a'.
    split; [done|]. split; [done|]. inversion Ht; subst; [done|]. split; [|done].
    unfold fits in *. simpl.
    match goal with H : a_items a = _ |- _ => rewrite H in Hfit end.
    rewrite !app_length in *. simpl in *. lia.
  - unfold cs_mgmt_erase.
    destruct (cs_erase_weak p (N.min (default SIZE_MAX count) ERASE_LIMIT) s a HR Hfit)
      as (s1 & n & a1 & -> & HR1 & Hf1 & Hl1).
    destruct (_ && _).
    + destruct (cs_find_weak now (prefix_interest p) s1 a1 HR1 Hf1) as (s2 & r & a2 & -> & HR2 & Hf2 & Hl2).
      destruct r; (eexists _, _, a2; split; [done|]; split; [done|]; split; [done|congruence]).
    + by eexists _, _, a1.
Qed.

Lemma cs_run_weak s a ops : R s a -> fits a ->
  exists s' rs a', cs_run s ops = Some (s', rs) /\ R s' a' /\ fits a' /\
    a_limit a' = foldl new_limit (a_limit a) ops.
Proof.
  revert s a. induction ops as [|o ops IH]; intros s a HR Hf.
  - by eexists _, _, a.
  - destruct (cs_step_weak s a o HR Hf) as (s1 & r & a1 & Hs & HR1 & Hf1 & Hl1).
    destruct (IH s1 a1 HR1 Hf1) as (s2 & rs & a2 & Hs2 & HR2 & Hf2 & Hl2).
    exists s2, (r :: rs), a2. simpl. rewrite Hs, Hs2. split; [done|]. split; [done|].
    split; [done|]. by rewrite Hl2, Hl1.
Qed.
