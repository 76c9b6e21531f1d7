(** The joint invariant of all tables, for every history *)
From stdpp Require Import gmap.
From Verif Require Import Lib Name_Model Name_Proof Packet_Model Nt_Model Nt_Spec Nt_Tree Tree_Model Tree_Proof Tab_Model Tab_Spec Tab_At Tab_Fib Tab_Pit Tab_Pit2 Tab_Meas Tab_Sc Tab_Clean.

Record tab_inv (T : tables) : Prop := {
  ti_tree : tree_ok T;
  ti_fib : fib_ok T;
  ti_pit : pit_ok T;
  ti_meas : meas_ok T;
  ti_sc : sc_ok T;
}.

Lemma counts_none {K V} : counts (fun _ : K => @None V) 0.
Proof. exists []. split; [constructor|]. split; [done|]. intros x. split; [by intros ?%elem_of_nil|by intros []]. Qed.
Lemma tab_inv_new : tab_inv new_tables.
Proof.
  assert (Hc : forall (V : Type), counter_ok 0 (fun _ : name => @None V)) by (intros V; exists 0; split; [apply counts_none|done]).
  split.
  - split; [intros n p [e He]; simpl in He; by rewrite lookup_empty in He|intros n [e He]; simpl in He; by rewrite lookup_empty in He].
  - split; [|apply (Hc fib_entry)]. intros n fe. unfold fib_find. simpl. by rewrite lookup_empty.
  - split; simpl.
    + intros n pe Hpe. by apply elem_of_nil in Hpe.
    + intros n. constructor.
    + intros n pe Hpe. by apply elem_of_nil in Hpe.
    + exists 0. split; [|done]. eapply counts_ext; [|apply (counts_none (V:=pit_entry))]. intros k. done.
  - split; [|apply (Hc meas_entry)]. intros n m. unfold meas_at. simpl. by rewrite lookup_empty.
  - apply (Hc name).
Qed.

Lemma fib_ok_same T T' : fib_ok T -> same_fib T T' -> fib_ok T'.
Proof. intros H [H1 H2]. unfold fib_ok. rewrite H2. eapply fib_inv_ext; [|exact H]. exact H1. Qed.
Lemma meas_ok_same T T' : meas_ok T -> same_meas T T' -> now T' = now T -> meas_ok T'.
Proof. intros H [H1 H2] H3. unfold meas_ok. rewrite H2, H3. eapply meas_inv_ext; [|exact H]. exact H1. Qed.
Lemma sc_ok_same T T' : sc_ok T -> same_sc T T' -> sc_ok T'.
Proof. intros H [H1 H2]. unfold sc_ok. rewrite H2. eapply counter_ext; [|exact H]. intros x. cbv beta. by rewrite H1. Qed.
Lemma pit_ok_same T T' : pit_ok T -> (forall n, e_pit (att T' n) = e_pit (att T n)) -> pit_n T' = pit_n T -> now T' = now T -> pit_ok T'.
Proof. intros H H1 H2 H3. unfold pit_ok. rewrite H2, H3. eapply pit_inv_ext; [|exact H]. exact H1. Qed.

Lemma only_fib_inv n v T T' : tab_inv T -> tree_ok T' -> fib_ok T' -> only_fib_at n v T T' -> tab_inv T'.
Proof.
  intros [I1 I2 I3 I4 I5] Ht Hf H. destruct (only_fib_frame _ _ _ _ H) as (_ & Hp & Hm & Hs & Hn).
  destruct H as (Ha & Hc & _). split; [done|done| | |].
  - eapply pit_ok_same; [done| |done|done]. intros k. rewrite Ha. by case_decide; subst.
  - by eapply meas_ok_same.
  - by eapply sc_ok_same.
Qed.
Lemma only_pit_inv n l T T' : tab_inv T -> tree_ok T' -> pit_ok T' -> only_pit_at n l T T' -> tab_inv T'.
Proof.
  intros [I1 I2 I3 I4 I5] Ht Hf H. destruct (only_pit_frame _ _ _ _ H) as (_ & Hp & Hm & Hs & Hn).
  split; [done| |done| |]; [by eapply fib_ok_same|by eapply meas_ok_same|by eapply sc_ok_same].
Qed.
Lemma only_meas_inv n v T T' : tab_inv T -> tree_ok T' -> meas_ok T' -> only_meas_at n v T T' -> tab_inv T'.
Proof.
  intros [I1 I2 I3 I4 I5] Ht Hf H. destruct (only_meas_frame _ _ _ _ H) as (_ & Hp & Hm & Hs & Hn).
  destruct H as (Ha & Hc & Hpn & _). split; [done| | |done|].
  - by eapply fib_ok_same.
  - eapply pit_ok_same; [done| |done|done]. intros k. rewrite Ha. by case_decide; subst.
  - by eapply sc_ok_same.
Qed.

Lemma key_clear pe : pe_key (clear_pit_entry pe) = pe_key pe.
Proof. done. Qed.
Lemma map_faces_in (g : in_record -> in_record) l : (forall r, fr_face (ir_rec (g r)) = fr_face (ir_rec r)) -> rec_faces_in (map g l) = rec_faces_in l.
Proof. intros Hg. induction l as [|r l IH]; [done|]. simpl. rewrite !rec_faces_in_cons, Hg. by rewrite IH. Qed.
Lemma map_faces_out (g : out_record -> out_record) l : (forall r, fr_face (or_rec (g r)) = fr_face (or_rec r)) -> rec_faces_out (map g l) = rec_faces_out l.
Proof. intros Hg. induction l as [|r l IH]; [done|]. simpl. rewrite !rec_faces_out_cons, Hg. by rewrite IH. Qed.
Lemma pe_ok_clear t pe : pe_ok t pe -> pe_ok t (clear_pit_entry pe).
Proof.
  intros [H1 H2 H3 H4]. split; simpl.
  - by rewrite map_faces_in.
  - by rewrite map_faces_out.
  - intros r (r0 & <- & Hr)%elem_of_list_In%in_map_iff. apply elem_of_list_In, H3 in Hr. exact Hr.
  - intros r (r0 & <- & Hr)%elem_of_list_In%in_map_iff. apply elem_of_list_In, H4 in Hr. exact Hr.
Qed.
Lemma info_rule_inv (st : name -> name -> bool) T T' : tab_inv T -> tree_ok T' -> sc_ok T' ->
  fib_n T' = fib_n T /\ pit_n T' = pit_n T /\ meas_n T' = meas_n T /\ now T' = now T ->
  info_rule st T T' -> tab_inv T'.
Proof.
  intros [I1 I2 I3 I4 I5] Ht Hs (Hf & Hp & Hm & Hn) Hr. split; [done| | | |done].
  - eapply fib_ok_same; [done|]. split; [|done]. intros n. rewrite !fib_at_att. destruct (Hr n) as (b & _ & ->). by destruct b.
  - unfold pit_ok. rewrite Hn, Hp. eapply pit_inv_map; [exact I3|]. intros n. cbv beta. destruct (Hr n) as (b & _ & ->).
    exists (if b then id else clear_pit_entry). destruct b; simpl.
    + split; [by rewrite map_id|done].
    + split; [done|]. split; [done|]. apply pe_ok_clear.
  - unfold meas_ok. rewrite Hn, Hm. destruct I4 as [M1 M2].
    assert (Hx : forall n, exists b : bool, meas_at T' n = if b then meas_at T n else option_map (fun m => MeasEntry (me_name m) (me_expiry m) (me_timer m) []) (meas_at T n)).
    { intros n. rewrite !meas_at_att. destruct (Hr n) as (b & _ & ->). exists b. by destruct b. }
    split.
    + intros n m. destruct (Hx n) as [[] ->]; [apply M1|]. destruct (meas_at T n) as [m0|] eqn:E; [|done]. intros [= <-]. exact (M1 n m0 E).
    + eapply counter_ext; [|exact M2]. intros n. cbv beta. destruct (Hx n) as [[] ->]; [done|]. destruct (meas_at T n); [by split|]. split; by intros [].
Qed.

Lemma in_ok_mono t t' k r : (t <= t')%Z -> in_ok t k r -> in_ok t' k r.
Proof. intros Hle (H1 & H2 & H3 & H4). repeat (split; [done|]). lia. Qed.
Lemma out_ok_mono t t' r : (t <= t')%Z -> out_ok t r -> out_ok t' r.
Proof. intros Hle (H1 & H2 & H3). split; [lia|done]. Qed.
Lemma pe_ok_mono t t' pe : (t <= t')%Z -> pe_ok t pe -> pe_ok t' pe.
Proof. intros Hle [H1 H2 H3 H4]. split; [done|done| |]; intros r Hr; [eapply in_ok_mono; eauto|eapply out_ok_mono; eauto]. Qed.

(** PIT entry writes *)
Lemma pe_ok_in t f i pe : (0 <= i_lifetime i)%Z -> key_of i = pe_key pe -> pe_ok t pe ->
  pe_ok t (set_pe_in (insert_or_update_in f i t (pe_in pe)) pe).
Proof.
  intros Hl Hk [H1 H2 H3 H4]. destruct (insert_in_ok f i t _ H1) as (I1 & _ & I3). split; simpl; [done|done| |done].
  intros r [Hr|(r0 & ->)]%I3; [by apply H3|]. split; [done|]. split; [done|]. simpl. rewrite ns_cap by done. split; [done|lia].
Qed.
Lemma pe_ok_out t f i pe : (0 <= i_lifetime i)%Z -> pe_ok t pe -> pe_ok t (set_pe_out (insert_or_update_out f i t (pe_out pe)) pe).
Proof.
  intros Hl [H1 H2 H3 H4]. destruct (insert_out_ok f i t _ H2) as (I1 & I2). split; simpl; [done|done|done|].
  assert (Hu : forall r0, (fr_renewed (record_update i t r0) <= t)%Z /\ (fr_renewed (record_update i t r0) <= fr_expiry (record_update i t r0))%Z /\
     (fr_expiry (record_update i t r0) <= fr_renewed (record_update i t r0) + ms_ns TEN_DAYS)%Z).
  { intros r0. simpl. rewrite ns_cap by done. unfold ms_ns, TEN_DAYS. lia. }
  intros r Hr. apply (elem_find_out _ _ I1) in Hr. rewrite I2 in Hr. case_decide as Hd.
  - injection Hr as <-. destruct (find_out f (pe_out pe)); apply Hu.
  - apply find_out_Some in Hr as [Hr _]. by apply H4.
Qed.
Lemma pe_ok_del_in t f pe : pe_ok t pe -> pe_ok t (set_pe_in (delete_in f (pe_in pe)) pe).
Proof. intros [H1 H2 H3 H4]. destruct (delete_in_ok f _ H1) as (I1 & _ & I3). split; simpl; auto. Qed.
Lemma pe_ok_del_out t f pe : pe_ok t pe -> pe_ok t (set_pe_out (delete_out f (pe_out pe)) pe).
Proof. intros [H1 H2 H3 H4]. destruct (delete_out_ok f _ H2) as (I1 & _ & I3). split; simpl; auto. Qed.
Lemma pe_ok_clear_in t pe : pe_ok t pe -> pe_ok t (set_pe_in [] pe).
Proof. intros [H1 H2 H3 H4]. split; simpl; [constructor|done| |done]. by intros r ?%elem_of_nil. Qed.
Lemma pe_ok_nack t f nonce reason pe : pe_ok t pe -> pe_ok t (set_pe_out (out_nack f nonce reason (pe_out pe)) pe).
Proof.
  intros [H1 H2 H3 H4]. destruct (out_nack_ok f nonce reason (pe_out pe)) as (O1 & O2). split; simpl; [done|by rewrite O1|done|].
  intros r Hr. apply elem_find_out in Hr; [|by rewrite O1]. rewrite O2 in Hr. case_decide as Hd.
  - destruct (find_out f (pe_out pe)) as [r0|] eqn:E; [|done]. apply find_out_Some in E as [E _]. apply H4 in E.
    injection Hr as <-. by destruct (nonce =? fr_nonce (or_rec r0))%N.
  - apply find_out_Some in Hr as [Hr _]. by apply H4.
Qed.
Lemma pe_ok_in_info t f si pe : pe_ok t pe -> pe_ok t (in_info f si pe).
Proof.
  intros [H1 H2 H3 H4]. split; simpl; [rewrite map_faces_in; [done|]|done| |done].
  - intros r. by destruct (fr_face (ir_rec r) =? f)%N.
  - intros r (r0 & <- & Hr)%elem_of_list_In%in_map_iff. apply elem_of_list_In, H3 in Hr. by destruct (fr_face (ir_rec r0) =? f)%N.
Qed.
Lemma pe_ok_out_info t f si pe : pe_ok t pe -> pe_ok t (out_info f si pe).
Proof.
  intros [H1 H2 H3 H4]. split; simpl; [done|rewrite map_faces_out; [done|]|done|].
  - intros r. by destruct (fr_face (or_rec r) =? f)%N.
  - intros r (r0 & <- & Hr)%elem_of_list_In%in_map_iff. apply elem_of_list_In, H4 in Hr. by destruct (fr_face (or_rec r0) =? f)%N.
Qed.
Lemma pit_upd_inv k f T : tab_inv T -> is_Some (pit_at T k) -> (forall pe, pe_key pe = k -> pe_key (f pe) = k) ->
  (forall pe, pe_key pe = k -> pe_ok (now T) pe -> pe_ok (now T) (f pe)) -> tab_inv (pit_upd k f T).
Proof.
  intros I Hk Hf Ho. destruct (pit_upd_ok k f T (ti_tree _ I) (ti_pit _ I) Hk Hf) as (l & H1 & H2 & H3 & _).
  - intros pe Hpe. apply Ho. rewrite pit_at_pview in Hpe. by apply (pview_Some _ _ _ _ _ (ti_pit _ I)) in Hpe as [_ ?].
  - by eapply only_pit_inv.
Qed.

Lemma tab_inv_now t T : tab_inv T -> (now T <= t)%Z -> (forall n m, meas_at T n = Some m -> (t < me_expiry m)%Z) -> tab_inv (set_now t T).
Proof.
  intros [I1 I2 I3 I4 I5] Hle Hm. split.
  - apply (tree_ok_tr T); [done|exact I1].
  - exact I2.
  - unfold pit_ok. simpl. eapply pit_inv_map; [exact I3|]. intros n. exists id. split; [by rewrite map_id|]. split; [done|].
    intros pe. by apply pe_ok_mono.
  - destruct I4 as [M1 M2]. split; [|done]. intros n m Hn. change (meas_at (set_now t T) n) with (meas_at T n) in Hn.
    destruct (M1 n m Hn) as (? & ? & _). split; [done|]. split; [done|]. by apply (Hm n).
  - exact I5.
Qed.

Section run.
  Variable sort_nexthops : list nexthop -> list nexthop.
  Variable create_strategy : name -> create_result.
  Variable same_type : name -> name -> bool.
  Hypothesis Hsort : sort_ok sort_nexthops.
  Hypothesis refl : forall s, same_type s s = true.

  Notation step := (tab_step sort_nexthops create_strategy same_type).

  (** no permitted operation fails, and all preserve the invariant *)
  Lemma step_ok T o : tab_inv T -> op_ok create_strategy T o -> exists T', step T o = Some T' /\ tab_inv T'.
  Proof.
    intros I Ho. destruct I as [I1 I2 I3 I4 I5] eqn:EI. clear EI. destruct o; simpl in *.
    - destruct (fib_insert_ok n T I1 I2 Ho) as (T' & -> & H1 & H2 & H3). exists T'. split; [done|]. by eapply only_fib_inv.
    - destruct (fib_erase_ok n T I1 I2 Ho) as (H1 & H2 & H3). eexists. split; [done|]. by eapply only_fib_inv.
    - destruct Ho as [fe Hfe]. destruct (fib_add_ok sort_nexthops n f cost T Hsort I1 I2 fe Hfe) as (T' & sg & l' & -> & H1 & H2 & H3 & _).
      exists T'. split; [done|]. by eapply only_fib_inv.
    - destruct Ho as [fe Hfe]. destruct (fib_remove_ok n f T I1 I2 fe Hfe) as (T' & res & -> & H1 & H2 & H3).
      exists T'. split; [done|]. destruct (cost_of f (fe_nexthops fe)).
      + destruct H3 as (l' & _ & _ & _ & Ha & Hb). destruct l' as [|h l'].
        * destruct Hb as [_ Hb]; [done|]. by eapply only_fib_inv.
        * destruct Ha as [_ Ha]; [done|]. by eapply only_fib_inv.
      + destruct H3 as [_ ->]. done.
    - destruct (pit_insert_ok i T I1 I3) as (T' & l & -> & H1 & H2 & H3 & _). exists T'. split; [done|]. by eapply only_pit_inv.
    - destruct (pit_erase_ok k T I1 I3 Ho) as (T' & l & -> & H1 & H2 & H3 & _). exists T'. split; [done|]. by eapply only_pit_inv.
    - destruct Ho as (Hk & He & Hl). eexists. split; [done|]. apply pit_upd_inv; [done|done|done|]. intros pe Hpe Hok. apply pe_ok_in; [done|congruence|done].
    - destruct Ho as (Hk & He & Hl). eexists. split; [done|]. apply pit_upd_inv; [done|done|done|]. intros pe Hpe Hok. by apply pe_ok_out.
    - eexists. split; [done|]. apply pit_upd_inv; [done|done|done|]. intros pe Hpe Hok. by apply pe_ok_del_in.
    - eexists. split; [done|]. apply pit_upd_inv; [done|done|done|]. intros pe Hpe Hok. by apply pe_ok_del_out.
    - eexists. split; [done|]. apply pit_upd_inv; [done|done|done|]. intros pe Hpe Hok. by apply pe_ok_clear_in.
    - eexists. split; [done|]. apply pit_upd_inv; [done|done|done|]. intros pe Hpe Hok. by apply pe_ok_nack.
    - eexists. split; [done|]. apply pit_upd_inv; [done|done|done|]. intros pe Hpe [? ? ? ?]. by split.
    - eexists. split; [done|]. apply pit_upd_inv; [done|done|done|]. intros pe Hpe Hok. by apply pe_ok_in_info.
    - eexists. split; [done|]. apply pit_upd_inv; [done|done|done|]. intros pe Hpe Hok. by apply pe_ok_out_info.
    - eexists. split; [done|]. apply pit_upd_inv; [done|done|done|]. intros pe Hpe [? ? ? ?]. by split.
    - unfold meas_get. destruct (meas_get_at_ok (take (Nat.min (length n) MAX_DEPTH) n) T I1 I4) as (T1 & T' & -> & -> & H1 & H2 & H3 & _).
      { rewrite take_length. unfold MAX_DEPTH. lia. }
      exists T'. split; [done|]. by eapply only_meas_inv.
    - unfold meas_get_pit. set (p := if _ && _ then _ else _).
      destruct (meas_get_at_ok p T I1 I4) as (T1 & T' & -> & -> & H1 & H2 & H3 & _).
      { unfold p. destruct (has_digest (pk_name k) && (length (pk_name k) <=? MAX_DEPTH)%nat) eqn:E.
        - apply andb_prop in E as [_ E]. apply Nat.leb_le in E. exact E.
        - rewrite pit_nte_length. unfold nte_depth, MAX_DEPTH. lia. }
      exists T'. split; [done|]. by eapply only_meas_inv.
    - unfold meas_get_parent. destruct n as [|c n]; [by exists T|].
      assert (Hp : present T (take (length (c :: n) - 1) (c :: n))).
      { apply (tk_closed _ I1 (c :: n)); [by apply meas_at_present|]. eexists. symmetry. apply take_drop. }
      destruct (meas_get_nte_ok _ T I1 I4 Hp) as (T' & -> & H1 & H2 & H3 & _). exists T'. split; [done|]. by eapply only_meas_inv.
    - destruct Ho as [m Hm]. destruct (meas_extend_ok n lifetime T m I1 I4 Hm) as (T' & -> & H1 & H2 & H3 & _).
      exists T'. split; [done|]. by eapply only_meas_inv.
    - eexists. split; [done|]. destruct Ho as [m Hm]. set (T' := upd _ _ T).
      assert (Hoo : only_meas_at n (Some (MeasEntry (me_name m) (me_expiry m) (me_timer m) si)) T T').
      { split; [|done]. intros k. unfold T'. rewrite upd_att by (apply meas_at_present; by eexists). case_decide; [|done].
        rewrite meas_at_att in Hm. by rewrite Hm. }
      destruct (proj1 I4 n m Hm) as (Hn1 & Hn2 & Hn3).
      eapply only_meas_inv; [done| | |exact Hoo]; [by apply upd_tree_ok|]. by eapply meas_set_ok.
    - destruct Ho as [H0 (s & Hs)]. destruct (sc_default_ok create_strategy same_type refl req s T I1 I5 Hs H0) as (T' & -> & H1 & H2 & H3 & Hf & Hp & Hm & Hn).
      exists T'. split; [done|].
      assert (Ha : forall n, e_fib (att T' n) = e_fib (att T n) /\ e_pit (att T' n) = e_pit (att T n) /\ e_meas (att T' n) = e_meas (att T n)).
      { intros n. rewrite H3. by case_decide; subst. }
      split; [done| | | |done].
      + eapply fib_ok_same; [done|]. split; [|done]. intros n. rewrite !fib_at_att. apply Ha.
      + eapply pit_ok_same; [done| |done|done]. intros n. apply Ha.
      + eapply meas_ok_same; [done| |done]. split; [|done]. intros n. rewrite !meas_at_att. apply Ha.
    - destruct (sc_insert_ok create_strategy same_type refl p req T I1 I5 Ho) as (T' & res & -> & H1 & H2 & H3 & _ & H4 & H5).
      exists T'. split; [done|]. destruct res; [|by rewrite H4..].
      destruct (H5 eq_refl) as (s & _ & _ & Hr). by eapply info_rule_inv.
    - destruct Ho as [Ho Hp]. destruct (sc_erase_ok create_strategy same_type refl p T I1 I5 Ho Hp) as (T' & -> & H1 & H2 & H3 & _ & H5).
      exists T'. split; [done|]. by eapply info_rule_inv.
    - destruct (cleanup_ok f T I1 I2) as (T' & -> & H1 & H2 & H3 & _ & Hp & Hs & Hm & Hn).
      exists T'. split; [done|]. split; [done|done| | |].
      + unfold pit_ok. rewrite Hp, Hn. eapply pit_inv_map; [exact I3|]. intros n. cbv beta. rewrite H3, cleanup_pit.
        exists (delete_in_out f). split; [done|]. split; [done|]. intros pe. apply pe_ok_delete.
      + eapply meas_ok_same; [done| |done]. split; [|done]. intros n. by rewrite !meas_at_att, H3, cleanup_meas.
      + eapply sc_ok_same; [done|]. split; [|done]. intros n. by rewrite !sc_at_att, H3, cleanup_sc.
    - eexists. split; [done|]. destruct (tick_ok d T I1 I4 Ho) as (H1 & H2 & H3 & H4 & H5 & Hf & Hp & Hs).
      split; [done| | |done|].
      + eapply fib_ok_same; [done|]. split; [|done]. intros n. rewrite !fib_at_att. apply H5.
      + unfold pit_ok. rewrite H3, Hp. eapply pit_inv_map; [exact I3|]. intros n. cbv beta. exists id. split; [rewrite map_id; apply H5|].
        split; [done|]. intros pe. apply pe_ok_mono. lia.
      + eapply sc_ok_same; [done|]. split; [|done]. intros n. rewrite !sc_at_att. apply H5.
  Qed.

  Lemma reachable_inv T : tab_reachable sort_nexthops create_strategy same_type T -> tab_inv T.
  Proof.
    induction 1 as [|T o T' H IH Ho Hs]; [apply tab_inv_new|].
    destruct (step_ok T o IH Ho) as (T2 & H2 & I2). congruence.
  Qed.
End run.
