(** What each pipeline does, case by case *)
From stdpp Require Import gmap.
From Verif Require Import Lib Name_Model Name_Proof Packet_Model Nt_Model Nt_Spec Nt_Tree Tree_Model Tree_Proof Tab_Model Tab_Spec Tab_At Tab_Fib Tab_Pit Tab_Pit2 Tab_Meas Tab_Sc Tab_Clean Tab_Run Tab_Main Fw_Model Fw_Spec Fw_Inv.
From Verif Require Cs_Model Cs_Spec Cs_Main Cs_Run Dnl_Model.

Definition got (x : io) (g : counters -> counters) (s : fw) : fw := set_cnt (g (fw_cnt s)) (set_log (x :: fw_log s) s).
Definition dec_hop (i : interest) : interest := match i_hop i with Some h => with_hop (Some (h - 1)%N) i | None => i end.
Definition strip_hint (regions : list name) (i : interest) : interest :=
  match i_hint i with [] => i | hint => if in_producer_region hint regions then without_hint i else i end.
Definition is_dup (fc : face) (e : pit_entry) (nonce f : N) : bool :=
  let dn := find_duplicate_nonce e nonce f in
  let dup := dn_in_same dn || dn_in_other dn || dn_out_same dn || dn_out_other dn in
  if is_p2p fc then dup && negb (dn_in_same dn) else dup.

Lemma hop_zero_dec i : match i_hop i with Some h => (h =? 0)%N | None => false end = true <-> hop_zero i.
Proof. unfold hop_zero. destruct (i_hop i) as [h|]; [|done]. rewrite N.eqb_eq. split; [by intros ->|by intros [= ->]]. Qed.
Lemma key_dec_hop i : key_of (dec_hop i) = key_of i.
Proof. unfold dec_hop. by destruct (i_hop i). Qed.
Lemma key_strip r i : key_of (strip_hint r i) = key_of i.
Proof. unfold strip_hint. destruct (i_hint i); [done|]. by destruct (in_producer_region _ _). Qed.
Lemma name_dec_hop i : i_name (dec_hop i) = i_name i.
Proof. unfold dec_hop. by destruct (i_hop i). Qed.
Lemma name_strip r i : i_name (strip_hint r i) = i_name i.
Proof. unfold strip_hint. destruct (i_hint i); [done|]. by destruct (in_producer_region _ _). Qed.

(** ** Invariant under changes of single fields *)
Lemma Inv_got x g s : Inv s -> Inv (got x g s).
Proof. intros []. by split. Qed.
Lemma Inv_cnt c s : Inv s -> Inv (set_cnt c s).
Proof. intros []. by split. Qed.
Lemma Inv_log l s : Inv s -> Inv (set_log l s).
Proof. intros []. by split. Qed.
Lemma Inv_dnl d s : Inv s -> Inv (set_dnl d s).
Proof. intros []. by split. Qed.
Lemma Inv_rand d s : Inv s -> Inv (set_rand d s).
Proof. intros []. by split. Qed.
Lemma reach_step limit c o c' r : Cs_Spec.reach_wf limit c -> Cs_Spec.op_wf o -> Cs_Model.cs_step c o = Some (c', r) ->
  Cs_Spec.reach_wf limit c'.
Proof.
  intros (ops & rs & Hw & Hr) Ho Hs. exists (ops ++ [o]), (rs ++ [r]). split; [by apply Forall_app_2; [|constructor]|].
  rewrite Cs_Run.cs_run_app, Hr. simpl. by rewrite Hs.
Qed.
Lemma Inv_cs o c r s : Inv s -> Cs_Spec.op_wf o -> Cs_Model.cs_step (fw_cs s) o = Some (c, r) -> Inv (set_cs c s).
Proof. intros [I1 I2 I3 I4 I5 I6 [limit I7]] Ho Hs. split; try done. exists limit. by eapply reach_step. Qed.

(** ** One write to an entry *)
Record wrote (k : pit_key) (e e' : pit_entry) (s s' : fw) : Prop := {
  wr_inv : Inv s';
  wr_core : same_core s s';
  wr_entry : entry_to k e e' s s';
  wr_n : pit_n (fw_t s') = pit_n (fw_t s);
  wr_log : fw_log s' = fw_log s;
  wr_cnt : fw_cnt s' = fw_cnt s;
  wr_meas : forall n, meas_at (fw_t s') n = meas_at (fw_t s) n;
  wr_priv : fw_priv s' = fw_priv s;
}.
Lemma pit_upd_meas k g s e : Inv s -> pit_at (fw_t s) k = Some e -> (forall pe, pe_key (g pe) = pe_key pe) ->
  (pe_ok (now (fw_t s)) e -> pe_ok (now (fw_t s)) (g e)) -> forall n, meas_at (pit_upd k g (fw_t s)) n = meas_at (fw_t s) n.
Proof.
  intros I He Hk Hok. pose proof (iv_tab _ I) as It. destruct (pit_upd_ok k g (fw_t s) (ti_tree _ It) (ti_pit _ It)) as (l & H1 & H2 & H3 & H4 & H5).
  - by exists e.
  - intros pe <-. apply Hk.
  - intros pe. rewrite He. by intros [= <-].
  - by pose proof (only_pit_frame _ _ _ _ H3) as (_ & _ & [Hm _] & _).
Qed.
Lemma entry_to_trans k e1 e2 e2' e3 s1 s2 s3 : entry_to k e1 e2 s1 s2 -> entry_to k e2' e3 s2 s3 -> entry_to k e1 e3 s1 s3.
Proof.
  intros [H1 H2] [H3 H4]. split; [done|]. intros k'. rewrite H4. case_decide; [done|]. rewrite H2. by rewrite decide_False.
Qed.
Lemma wrote_trans k e1 e2 e2' e3 s1 s2 s3 : wrote k e1 e2 s1 s2 -> wrote k e2' e3 s2 s3 -> wrote k e1 e3 s1 s3.
Proof.
  intros [] []. split; try congruence; [by eapply same_core_trans|by eapply entry_to_trans].
Qed.
Lemma entry_to_at k e e' s s' : entry_to k e e' s s' -> pit_at (fw_t s) k = Some e /\ pit_at (fw_t s') k = Some e'.
Proof. intros [H1 H2]. split; [done|]. by rewrite H2, decide_True. Qed.
Lemma upd_step k g s s' u : Inv s -> upd_entry k g s = Some (s', u) -> (forall pe, pe_key (g pe) = pe_key pe) ->
  (forall e, pit_at (fw_t s) k = Some e -> pe_ok (now (fw_t s)) e -> pe_ok (now (fw_t s)) (g e)) ->
  (forall e, pit_at (fw_t s) k = Some e -> entry_fine (fw_faces s) e -> entry_fine (fw_faces s) (g e)) ->
  exists e, wrote k e (g e) s s'.
Proof.
  intros I (e & He & ->)%upd_entry_Some H1 H2 H3. exists e. destruct (pit_upd_core k g s e I He) as (C1 & C2 & C3 & C4); [done|by apply H2|].
  split; try done; [|by apply (pit_upd_meas k g s e); [..|apply H2]]. eapply Inv_entry_to; [exact I|done|done|exact C3|]. apply H3; [done|]. by apply (iv_pit _ I k).
Qed.
Definition set_timer (t : Z) (e : pit_entry) : pit_entry :=
  PitEntry (pe_interest e) (pe_in e) (pe_out e) (pe_satisfied e) (pe_fresh e) (Some t) (pe_info e).
Definition set_satisfied (fresh : Z) (e : pit_entry) : pit_entry :=
  PitEntry (pe_interest e) (pe_in e) (pe_out e) true fresh (pe_timer e) (pe_info e).
Lemma same_records_ok t (e e' : pit_entry) : pe_interest e' = pe_interest e -> pe_in e' = pe_in e -> pe_out e' = pe_out e -> pe_ok t e -> pe_ok t e'.
Proof. intros H1 H2 H3 [E1 E2 E3 E4]. split; unfold pe_key; rewrite ?H1, ?H2, ?H3; done. Qed.
Lemma same_records_fine F (e e' : pit_entry) : pe_interest e' = pe_interest e -> pe_in e' = pe_in e -> pe_out e' = pe_out e -> entry_fine F e -> entry_fine F e'.
Proof. intros H1 H2 H3 [E1 E2 E3 E4]. split; rewrite ?H1, ?H2, ?H3; done. Qed.
Lemma set_expiry_step k ms s s' u : Inv s -> set_expiry k ms s = Some (s', u) ->
  exists e, wrote k e (set_timer (now (fw_t s) + ns_of_ms (Z.max ms 0)) e) s s'.
Proof.
  intros I H. unfold set_expiry in H. inv_bind H. injection H0 as <- <-. eapply upd_step in H; [exact H|done|done|..].
  - intros e _. by apply same_records_ok.
  - intros e _. by apply same_records_fine.
Qed.
Lemma mark_step k fresh s s' u : Inv s -> mark_satisfied k fresh s = Some (s', u) ->
  exists e, wrote k e (set_satisfied fresh e) s s'.
Proof.
  intros I H. eapply upd_step in H; [exact H|done|done|..].
  - intros e _. by apply same_records_ok.
  - intros e _. by apply same_records_fine.
Qed.

Section case.
  Variable sort_nexthops : list nexthop -> list nexthop.
  Variable create_strategy : name -> create_result.
  Variable same_type : name -> name -> bool.
  Variable make_entry : name -> N -> Dnl_Model.fingerprint.
  Variable rand : nat -> nat.
  Variable face_order : list N -> list N.
  Variable strategies : name -> strategy.
  Hypothesis W : world_ok sort_nexthops same_type face_order.

  (** ** Loops *)
  Definition loop_nacks (s : fw) (f : N) (n : name) : bool :=
    match fw_faces s !! f with
    | Some fc => is_p2p fc && match effective n (fw_t s) with Some (_, inst) => st_loop_nack (strategies inst) | None => false end
    | None => false
    end.
  Definition loop_out (i : interest) (f : N) (s : fw) : fw :=
    if loop_nacks s f (i_name i) then got (Tx_nack f i NACK_DUPLICATE) inc_out_nacks s else s.
  Lemma loop_case i f s s' u : on_interest_loop strategies i f s = Some (s', u) -> s' = loop_out i f s.
  Proof.
    unfold on_interest_loop, loop_out, loop_nacks. intros (s1 & fc & [-> Hf]%face_of_Some & H)%bind_Some. rewrite Hf.
    destruct (is_p2p fc); simpl in *; [|by injection H as <- <-].
    apply bind_Some in H as (s1 & st & Hst & H). unfold strategy_for in Hst. destruct (effective (i_name i) (fw_t s)) as [[p inst]|]; [|done].
    injection Hst as <- <-. destruct (st_loop_nack (strategies inst)); [|by injection H as <- <-].
    apply bind_Some in H as (s1 & v & [= <- <-] & H). by injection H as <- <-.
  Qed.

  (** ** Dead nonces: only the dead nonce list and the random choices change *)
  Lemma dnl_step k up s s' u : insert_dead_nonce_list make_entry rand k up s = Some (s', u) -> exists d n, s' = set_dnl d (set_rand n s).
  Proof.
    unfold insert_dead_nonce_list. intros (s1 & e & [-> He]%entry_Some & H)%bind_Some. destruct (_ && _); [done|].
    destruct (_ || _); [|injection H as <- <-; exists (fw_dnl s), (fw_rand s); by destruct s].
    assert (Hg : forall l s, each l (fun x => let! c := next_rand rand in put (fun s => set_dnl (Dnl_Model.dnl_add make_entry (fw_dnl s) (pk_name k) x c) s)) s = Some (s', u) ->
      exists d n, s' = set_dnl d (set_rand n s)); [|by eapply Hg].
    clear. induction l as [|x l IH]; intros s H; simpl in H.
    - injection H as <- <-. exists (fw_dnl s), (fw_rand s). by destruct s.
    - apply bind_Some in H as (s1 & v & Hm & H). apply bind_Some in Hm as (s2 & c & [= <- <-] & [= <- <-]).
      destruct (IH _ H) as (d & n & ->). by exists d, n.
  Qed.

  (** ** Interests *)
  Record inserted (i : interest) (s : fw) (e : pit_entry) (new : bool) (s1 : fw) : Prop := {
    ins_e : e = default (new_pit_entry i) (pit_at (fw_t s) (key_of i));
    ins_new : new = match pit_at (fw_t s) (key_of i) with None => true | Some _ => false end;
    ins_key : pe_key e = key_of i;
    ins_inv : Inv s1;
    ins_core : same_core s s1;
    ins_pits : forall k, pit_at (fw_t s1) k = if decide (k = key_of i) then Some e else pit_at (fw_t s) k;
    ins_n : pit_n (fw_t s1) = match pit_at (fw_t s) (key_of i) with None => inc64 (pit_n (fw_t s)) | Some _ => pit_n (fw_t s) end;
    ins_log : fw_log s1 = fw_log s;
    ins_cnt : fw_cnt s1 = fw_cnt s;
    ins_fw : s1 = set_t (fw_t s1) s;
    ins_meas : forall n, meas_at (fw_t s1) n = meas_at (fw_t s) n;
  }.
  Lemma insert_case i s T e new : Inv s -> (0 <= i_lifetime i)%Z -> pit_insert i (fw_t s) = Some (T, e, new) -> inserted i s e new (set_t T s).
  Proof.
    intros I Hl H. pose proof (iv_tab _ I) as It.
    destruct (pit_insert_ok i (fw_t s) (ti_tree _ It) (ti_pit _ It)) as (T' & l & H1 & H2 & H3 & H4 & H5 & H6). rewrite H in H1.
    injection H1 as -> He Hnew. pose proof (only_pit_frame _ _ _ _ H4) as (_ & [Hf _] & [Hm _] & [Hs _] & Hn).
    assert (It' : tab_inv T') by (by eapply only_pit_inv).
    assert (Hc : same_core s (set_t T' s)) by (by split).
    split; try done.
    - destruct (pit_at (fw_t s) (key_of i)) as [e0|] eqn:E; simpl in He; subst e; [|done]. by eapply entry_ok.
    - apply (Inv_core s); [done|done|done|]. intros k e0. simpl. rewrite H5. case_decide; [|apply I]. intros [= <-].
      destruct (pit_at (fw_t s) (key_of i)) as [e0|] eqn:E; simpl; [by eapply I|]. split; simpl; try done; intros r Hr; by apply elem_of_nil in Hr.
    - intros k. simpl. rewrite H5. by rewrite <- He.
  Qed.

  (** what [on_cs_miss] has done when the forwarding decision is made *)
  Definition add_hop (s : fw) (i : interest) : bool := (0 <? fw_hop s)%N && match i_hop i with None => true | Some _ => false end.
  Definition with_default_hop (s : fw) (i : interest) : interest := if add_hop s i then with_hop (Some (fw_hop s)) i else i.
  Record missed (i3 : interest) (f : N) (k : pit_key) (new : bool) (i : interest) (e e3 : pit_entry) (s s3 : fw) : Prop := {
    ms_wrote : wrote k e e3 (set_cnt (inc_cs_misses (fw_cnt s)) s) s3;
    ms_i3 : i3 = with_default_hop s i;
    ms_interest : pe_interest e3 = (if add_hop s i && new then with_hop (Some (fw_hop s)) (pe_interest e) else pe_interest e);
    ms_in : pe_in e3 = insert_or_update_in f i3 (now (fw_t s)) (pe_in e);
    ms_out : pe_out e3 = pe_out e;
    ms_sat : pe_satisfied e3 = pe_satisfied e;
    ms_fresh : pe_fresh e3 = pe_fresh e;
    ms_info : pe_info e3 = pe_info e;
    ms_timer : exists ms, last_expiry_ms (now (fw_t s)) e3 = Some ms /\ pe_timer e3 = Some (now (fw_t s) + ns_of_ms (Z.max ms 0))%Z;
  }.
  Definition forwards (i3 : interest) (f : N) (k : pit_key) (s3 s' : fw) : Prop :=
    match i_nexthop i3 with
    | Some g => if decide (is_Some (fw_faces s3 !! g)) then exists b, on_outgoing_interest i3 g k s3 = Some (s', b) else s' = s3
    | None => exists p inst, effective (pk_name k) (fw_t s3) = Some (p, inst) /\
                run rand face_order (Some i3) k (st_interest (strategies inst) i3 f k) s3 = Some (s', tt)
    end.
  Lemma fine_ins_in F f i t e : is_Some (F !! f) -> (0 <= i_lifetime i)%Z -> entry_fine F e -> entry_fine F (set_pe_in (insert_or_update_in f i t (pe_in e)) e).
  Proof.
    intros Hf Hl [E1 E2 E3 E4]. split; simpl; auto.
    - intros r [?|[-> _]]%insert_in_elem; auto.
    - intros r [?|[_ ->]]%insert_in_elem; auto.
  Qed.
  Lemma miss_case i f k new s s' u e : Inv s -> (0 <= i_lifetime i)%Z -> is_Some (fw_faces s !! f) -> key_of i = k -> pit_at (fw_t s) k = Some e ->
    (new = true -> pe_interest e = i /\ pe_in e = []) ->
    on_cs_miss rand face_order strategies i f k new s = Some (s', u) ->
    exists e3 s3, missed (with_default_hop s i) f k new i e e3 s s3 /\ forwards (with_default_hop s i) f k s3 s'.
  Proof.
    intros I Hl Hf Hk He Hnew H. unfold on_cs_miss in H.
    apply bind_Some in H as (s0 & v & [= <- <-] & H). apply bind_Some in H as (s0 & v & [= <- <-] & H).
    set (s1 := set_cnt _ s) in H. assert (I1 : Inv s1) by (by apply Inv_cnt).
    apply bind_Some in H as (s2 & v2 & H2 & H). change (if _ && _ then with_hop _ i else i) with (with_default_hop s i) in H.
    change ((0 <? fw_hop s1)%N && _) with (add_hop s i) in H2.
    set (i3 := with_default_hop s i) in *.
    assert (Hi3 : key_of i3 = k /\ (0 <= i_lifetime i3)%Z) by (unfold i3, with_default_hop; destruct (add_hop s i); by split).
    set (e2 := PitEntry (if add_hop s i && new then with_hop (Some (fw_hop s)) (pe_interest e) else pe_interest e) (pe_in e) (pe_out e) (pe_satisfied e) (pe_fresh e) (pe_timer e) (pe_info e)).
    assert (W2 : wrote k e e2 s1 s2).
    { destruct (add_hop s i && new) eqn:Ea.
      - apply andb_prop in Ea as [_ ->]. destruct (Hnew eq_refl) as [Hi Hin]. eapply upd_step in H2; [|exact I1|done|..].
        + destruct H2 as [e' Hw]. destruct (entry_to_at _ _ _ _ _ (wr_entry _ _ _ _ _ Hw)) as [He' _]. change (pit_at (fw_t s) k = Some e') in He'.
          rewrite He in He'. injection He' as <-. exact Hw.
        + intros e' He'. change (pit_at (fw_t s) k = Some e') in He'. rewrite He in He'. injection He' as <-. intros [E1 E2 E3 E4]. split; simpl; try done.
        + intros e' He'. change (pit_at (fw_t s) k = Some e') in He'. rewrite He in He'. injection He' as <-. intros [E1 E2 E3 E4]. split; simpl; try done.
      - injection H2 as <- <-. replace e2 with e by (unfold e2; by destruct e). split; try done. split; [done|]. intros k'.
        case_decide; [by subst|done]. }
    assert (I2 := wr_inv _ _ _ _ _ W2). destruct (entry_to_at _ _ _ _ _ (wr_entry _ _ _ _ _ W2)) as [_ He2].
    assert (Hn2 : now (fw_t s2) = now (fw_t s)) by exact (sc_now _ _ (wr_core _ _ _ _ _ W2)).
    assert (Hf2 : fw_faces s2 = fw_faces s) by exact (sc_faces _ _ (wr_core _ _ _ _ _ W2)).
    apply bind_Some in H as (s3 & v3 & H3 & H).
    assert (W3 : exists e', wrote k e' (set_pe_in (insert_or_update_in f i3 (now (fw_t s)) (pe_in e')) e') s2 s3).
    { eapply upd_step in H3; [exact H3|done|done|..].
      - intros e' He'. rewrite Hn2. apply pe_ok_in; [apply Hi3|]. destruct (entry_ok _ _ _ I2 He') as [_ ->]. apply Hi3.
      - intros e' _. apply fine_ins_in; [by rewrite Hf2|apply Hi3]. }
    destruct W3 as [e' W3]. destruct (entry_to_at _ _ _ _ _ (wr_entry _ _ _ _ _ W3)) as [He' He3]. rewrite He2 in He'. injection He' as <-.
    assert (I3 := wr_inv _ _ _ _ _ W3).
    assert (Hn3 : now (fw_t s3) = now (fw_t s)) by (rewrite <- Hn2; exact (sc_now _ _ (wr_core _ _ _ _ _ W3))).
    apply bind_Some in H as (s4 & e4 & [-> He4]%entry_Some & H). rewrite He3 in He4. injection He4 as <-.
    change (now (fw_t s1)) with (now (fw_t s)) in H. set (e3 := set_pe_in _ e2) in *.
    destruct (last_expiry_ms (now (fw_t s)) e3) as [ms|] eqn:Ems; [|done].
    apply bind_Some in H as (s4 & v4 & H4 & H). apply set_expiry_step in H4 as [e4 W4]; [|done].
    destruct (entry_to_at _ _ _ _ _ (wr_entry _ _ _ _ _ W4)) as [He4 _]. rewrite He3 in He4. injection He4 as <-. rewrite Hn3 in W4.
    eexists _, s4. split.
    - split; [eapply wrote_trans; [exact W2|]; eapply wrote_trans; [exact W3|exact W4]|done..|]. exists ms. split; [|done]. exact Ems.
    - unfold forwards. destruct (i_nexthop i3) as [g|].
      + apply bind_Some in H as (s5 & s6 & [= <- <-] & H). destruct (fw_faces s4 !! g) as [fc|] eqn:Eg; [|by injection H as <- <-].
        rewrite decide_True by done. apply bind_Some in H as (s5 & b & H5 & H). injection H as <- <-. by exists b.
      + apply bind_Some in H as (s5 & st & Hst & H). unfold strategy_for in Hst. destruct (effective (pk_name k) (fw_t s4)) as [[p inst]|]; [|done].
        injection Hst as <- <-. exists p, inst. split; [done|]. by destruct u.
  Qed.
  Lemma outgoing_satom i3 g k s3 s' b : Inv s3 -> (0 <= i_lifetime i3)%Z -> on_outgoing_interest i3 g k s3 = Some (s', b) -> satom (Some i3) k (AInterest Trigger None false g) s3 s'.
  Proof.
    intros I Hl H. unfold on_outgoing_interest in H. inv_bind H. apply face_of_Some in H0 as [-> Hf].
    destruct (match i_hop i3 with Some h => (h =? 0)%N | None => false end) eqn:Eh; simpl in H; [destruct (fc_local a) eqn:El; simpl in H|].
    2: { inv_bind H. injection H as <- <-. injection H0 as <-. eapply (sa_hop0 _ _ _ _ _ Trigger None false g); [done|by split|done|done|done|by exists a]. }
    all: inv_bind H; injection H0 as <- <-; inv_bind H; apply upd_entry_Some in H0 as (e & He & ->);
      inv_bind H; injection H0 as <- <-; inv_bind H; injection H0 as <- <-; injection H as <- <-;
      destruct (pit_upd_core k (fun e => set_pe_out (insert_or_update_out g i3 (now (fw_t s3)) (pe_out e)) e) s3 e I He) as (H1 & H2 & H3 & H4);
      [done|by apply pe_ok_out|];
      eapply (sa_interest _ _ _ _ _ e i3 i3 Trigger None false g a); [done|by apply same_core_io|exact H2|done|apply derived_refl|by right|exact Hf| |exact H3|exact H4|done|done].
    - done.
    - intros Hz%hop_zero_dec. congruence.
  Qed.
  Lemma forwards_satoms i3 f k s3 s' : Inv s3 -> (0 <= i_lifetime i3)%Z -> forwards i3 f k s3 s' -> rtc (anyk (Some i3) k) s3 s'.
  Proof.
    intros I Hl H. unfold forwards in H. destruct (i_nexthop i3) as [g|].
    - case_decide; [|by subst]. destruct H as [b H]. apply rtc_once. exists (AInterest Trigger None false g). split; [by eapply outgoing_satom|by exists s3].
    - destruct H as (p & inst & _ & H). eapply run_satoms; [exact (wo_order _ _ _ W)|done| |exact H]. by intros i [= <-].
  Qed.

  (** the Content Store is asked when the entry has no in-record *)
  Definition not_in_cs (i : interest) (e : pit_entry) (s s2 : fw) : Prop :=
    (pe_in e <> [] /\ s2 = s) \/
    (pe_in e = [] /\ exists c, Cs_Model.cs_find (now (fw_t s)) i (fw_cs s) = Some (c, None) /\ s2 = set_cs c s).
  Record hit (i : interest) (f : N) (fc : face) (k : pit_key) (d : data) (e : pit_entry) (s s' : fw) : Prop := {
    ht_wrote : exists sc, wrote k e (set_timer (now (fw_t s)) (set_satisfied (d_fresh d) e)) (set_cnt (inc_cs_hits (fw_cnt s)) s) sc /\
       s' = if fc_local fc || negb (is_localhost (d_name d)) then got (Tx_data f d (i_token i)) inc_out_data sc else sc;
    ht_matches : matches_data (pe_interest e) d = true;
  }.

  Inductive pit_cases (f : N) (fc : face) (i2 : interest) (e : pit_entry) (new : bool) (s1 s' : fw) : Prop :=
  | pc_dup : is_dup fc e (i_nonce i2) f = true -> s' = loop_out i2 f s1 -> pit_cases f fc i2 e new s1 s'
  | pc_hit c d : is_dup fc e (i_nonce i2) f = false -> pe_in e = [] -> Cs_Model.cs_find (now (fw_t s1)) i2 (fw_cs s1) = Some (c, Some d) ->
      Inv (set_cs c s1) -> hit i2 f fc (key_of i2) d e (set_cs c s1) s' -> pit_cases f fc i2 e new s1 s'
  | pc_miss s2 e3 s3 : is_dup fc e (i_nonce i2) f = false -> not_in_cs i2 e s1 s2 -> Inv s2 ->
      missed (with_default_hop s2 i2) f (key_of i2) new i2 e e3 s2 s3 -> forwards (with_default_hop s2 i2) f (key_of i2) s3 s' ->
      pit_cases f fc i2 e new s1 s'.
  Inductive passes (s : fw) (f : N) (i : interest) (fc : face) (s' : fw) : Prop :=
  | ps_dead : Dnl_Model.dnl_has make_entry (fw_dnl s) (i_name i) (i_nonce i) = true ->
      s' = loop_out (dec_hop i) f (got (Rx_interest f i) inc_in_interests s) -> passes s f i fc s'
  | ps_pit i2 e new s1 : Dnl_Model.dnl_has make_entry (fw_dnl s) (i_name i) (i_nonce i) = false -> i2 = strip_hint (fw_regions s) (dec_hop i) ->
      inserted i2 (got (Rx_interest f i) inc_in_interests s) e new s1 -> pit_cases f fc i2 e new s1 s' -> passes s f i fc s'.
  Inductive interest_case (s : fw) (f : N) (i : interest) (fc : face) (s' : fw) : Prop :=
  | ic_hop0 : hop_zero i -> s' = set_cnt (inc_in_hop0 f (inc_in_interests (fw_cnt s))) (set_log (Rx_interest f i :: fw_log s) s) -> interest_case s f i fc s'
  | ic_scope : ~ hop_zero i -> fc_local fc = false -> is_localhost (i_name i) = true -> s' = got (Rx_interest f i) inc_in_interests s -> interest_case s f i fc s'
  | ic_pass : ~ hop_zero i -> negb (fc_local fc) && is_localhost (i_name i) = false -> passes s f i fc s' -> interest_case s f i fc s'.

  Lemma set_t_id s : set_t (fw_t s) s = s.
  Proof. by destruct s. Qed.
  Lemma is_dup_new fc e nonce f : is_dup fc e nonce f = true -> ~ (pe_in e = [] /\ pe_out e = []).
  Proof.
    unfold is_dup, find_duplicate_nonce. intros H [H1 H2]. rewrite H1, H2 in H. simpl in H. by destruct (is_p2p fc).
  Qed.

  Lemma hit_case i f fc k d s s' u e : Inv s -> fw_faces s !! f = Some fc -> pit_at (fw_t s) k = Some e -> pe_in e = [] ->
    on_cs_hit strategies i f k d s = Some (s', u) -> hit i f fc k d e s s'.
  Proof.
    intros I Hf He Hin H. unfold on_cs_hit in H. apply bind_Some in H as (s0 & v & [= <- <-] & H). set (s1 := set_cnt _ s) in H.
    assert (I1 : Inv s1) by (by apply Inv_cnt). apply bind_Some in H as (s2 & v2 & H2 & H). apply mark_step in H2 as [e2 W2]; [|done].
    destruct (entry_to_at _ _ _ _ _ (wr_entry _ _ _ _ _ W2)) as [He2 He2']. change (pit_at (fw_t s) k = Some e2) in He2. rewrite He in He2. injection He2 as <-.
    apply bind_Some in H as (s3 & v3 & H3 & H). apply set_expiry_step in H3 as [e3 W3]; [|exact (wr_inv _ _ _ _ _ W2)].
    destruct (entry_to_at _ _ _ _ _ (wr_entry _ _ _ _ _ W3)) as [He3 He3']. rewrite He2' in He3. injection He3 as <-.
    assert (Hn2 : now (fw_t s2) = now (fw_t s)) by exact (sc_now _ _ (wr_core _ _ _ _ _ W2)). rewrite Hn2 in W3, He3'.
    assert (Ez : (now (fw_t s) + ns_of_ms (Z.max 0 0) = now (fw_t s))%Z) by apply Z.add_0_r. rewrite Ez in W3, He3'.
    pose proof (wrote_trans _ _ _ _ _ _ _ _ W2 W3) as W4.
    apply bind_Some in H as (s4 & st & Hst & H). unfold strategy_for in Hst. destruct (effective (pk_name k) (fw_t s3)) as [[p inst]|]; [|done]. injection Hst as <- <-.
    apply bind_Some in H as (s5 & b & H5 & H). injection H as <- <-. unfold send_data in H5.
    apply bind_Some in H5 as (s6 & e6 & [-> He6]%entry_Some & H5). rewrite He3' in He6. injection He6 as <-. simpl in H5.
    destruct (matches_data (pe_interest e) d) eqn:Em; [|done]. simpl in H5. rewrite Hin in H5. simpl in H5.
    split; [|done]. exists s3. split; [exact W4|]. unfold on_outgoing_data in H5. apply bind_Some in H5 as (s7 & s8 & [= <- <-] & H5).
    assert (Hf3 : fw_faces s3 !! f = Some fc) by (rewrite (sc_faces _ _ (wr_core _ _ _ _ _ W4)); exact Hf). rewrite Hf3 in H5.
    destruct (fc_local fc), (is_localhost (d_name d)); simpl in *;
      first [by injection H5 as <- <- | apply bind_Some in H5 as (? & ? & [= <- <-] & H5); apply bind_Some in H5 as (? & ? & [= <- <-] & H5); by injection H5 as <- <-].
  Qed.

  Lemma interest_cases s f i s' : Inv s -> ev_ok s (EvInterest f i) ->
    on_incoming_interest make_entry rand face_order strategies i f s = Some (s', tt) ->
    exists fc, fw_faces s !! f = Some fc /\ interest_case s f i fc s'.
  Proof.
    intros I (Hf & Hl & Hv) H. unfold on_incoming_interest in H.
    apply bind_Some in H as (s0 & v & [= <- <-] & H). apply bind_Some in H as (s0 & v & [= <- <-] & H).
    apply bind_Some in H as (s0 & fc & [-> Hfc]%face_of_Some & H). simpl in Hfc. exists fc. split; [done|].
    change (set_cnt _ _) with (got (Rx_interest f i) inc_in_interests s) in H. set (s0 := got _ _ s) in *.
    assert (I0 : Inv s0) by (by apply Inv_got).
    destruct (match i_hop i with Some h => (h =? 0)%N | None => false end) eqn:Eh.
    { apply ic_hop0; [by apply hop_zero_dec|]. by injection H as <-. }
    assert (Hz : ~ hop_zero i) by (intros Hz%hop_zero_dec; congruence). clear Eh.
    change (match i_hop i with Some h => with_hop (Some (h - 1)%N) i | None => i end) with (dec_hop i) in H. rewrite name_dec_hop in H.
    destruct (negb (fc_local fc) && is_localhost (i_name i)) eqn:Es.
    { apply andb_prop in Es as [Es1 Es2]. apply ic_scope; [done|by destruct (fc_local fc)|done|]. by injection H as <-. }
    apply ic_pass; [done|done|].
    apply bind_Some in H as (s00 & s01 & [= <- <-] & H). change (fw_dnl s0) with (fw_dnl s) in H.
    assert (Hnonce : i_nonce (dec_hop i) = i_nonce i) by (unfold dec_hop; by destruct (i_hop i)). rewrite Hnonce in H.
    destruct (Dnl_Model.dnl_has make_entry (fw_dnl s) (i_name i) (i_nonce i)) eqn:Ed.
    { apply ps_dead; [done|]. by apply loop_case in H. }
    change (match i_hint (dec_hop i) with [] => dec_hop i | _ => _ end) with (strip_hint (fw_regions s) (dec_hop i)) in H.
    set (i2 := strip_hint _ _) in *.
    assert (Hl2 : (0 <= i_lifetime i2)%Z).
    { unfold i2, strip_hint. assert ((0 <= i_lifetime (dec_hop i))%Z) by (unfold dec_hop; by destruct (i_hop i)).
      destruct (i_hint (dec_hop i)); [done|]. by destruct (in_producer_region _ _). }
    assert (Hv2 : name_valid (i_name i2)) by (unfold i2; by rewrite name_strip, name_dec_hop).
    apply bind_Some in H as (s1 & [e new] & Hins & H). destruct (pit_insert i2 (fw_t s0)) as [[[T e'] new']|] eqn:Ei; [|done].
    injection Hins as <- <- <-. pose proof (insert_case _ _ _ _ _ I0 Hl2 Ei) as Hin. set (s1 := set_t T s0) in *.
    eapply ps_pit; [done|done|exact Hin|]. pose proof (ins_inv _ _ _ _ _ Hin) as I1. rewrite (ins_key _ _ _ _ _ Hin) in H.
    assert (Hat : pit_at (fw_t s1) (key_of i2) = Some e') by (rewrite (ins_pits _ _ _ _ _ Hin); by rewrite decide_True).
    change (if is_p2p fc then _ else _) with (is_dup fc e' (i_nonce i2) f) in H.
    assert (Hf1 : fw_faces s1 = fw_faces s) by done.
    assert (Hnew : new' = true -> pe_interest e' = i2 /\ pe_in e' = []).
    { intros ->. pose proof (ins_e _ _ _ _ _ Hin) as He. pose proof (ins_new _ _ _ _ _ Hin) as Hn. destruct (pit_at (fw_t s0) (key_of i2)); [done|]. by rewrite He. }
    destruct (is_dup fc e' (i_nonce i2) f) eqn:Edup.
    { apply pc_dup; [done|]. by apply loop_case in H. }
    destruct (pe_in e') as [|r l] eqn:Ein.
    - apply bind_Some in H as (s2 & r & Hr & H). destruct (Cs_Model.cs_find (now (fw_t s1)) i2 (fw_cs s1)) as [[c r']|] eqn:Ec; [|done].
      injection Hr as <- <-. assert (I2 : Inv (set_cs c s1)).
      { eapply (Inv_cs (Cs_Model.OFind (now (fw_t s1)) i2)); [done|exact Hv2|]. unfold Cs_Model.cs_step. by rewrite Ec. }
      destruct r' as [d|].
      + eapply pc_hit; [done|done|exact Ec|done|]. eapply hit_case; [done|exact Hfc|exact Hat|done|exact H].
      + eapply miss_case in H as (e3 & s3 & Hm & Hfw); [|done|done|by exists fc|done|exact Hat|rewrite Ein; exact Hnew].
        eapply pc_miss; [done| |exact I2|exact Hm|exact Hfw]. right. split; [done|]. by exists c.
    - eapply miss_case in H as (e3 & s3 & Hm & Hfw); [|done|done|by exists fc|done|exact Hat|rewrite Ein; exact Hnew].
      eapply pc_miss; [done| |exact I1|exact Hm|exact Hfw]. left. by rewrite Ein.
  Qed.
End case.
