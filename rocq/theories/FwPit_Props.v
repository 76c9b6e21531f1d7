(** Properties C28, C29, C30, C35: loops, expiry of PIT entries, Nacks, counters *)
From stdpp Require Import gmap.
From Verif Require Import Lib Name_Model Packet_Model Nt_Model Nt_Spec Tree_Model Tab_Model Tab_Spec Tab_At Tab_Pit Fw_Model Fw_Spec Fw_Inv Fw_Case Fw_Case2 Fw_Case3 Fw_Hist Fw_Acc Fw_Step Fw_Out Fw_Main Fw_Data Fw_Timer Fw_Calm Fw_Last Fw_Ex Fib_Props FwData_Props.
From Verif Require Cs_Model Cs_Spec Dnl_Model Dnl_Spec Dnl_Proof.

Section props.
  Variable sort_nexthops : list nexthop -> list nexthop.
  Variable create_strategy : name -> create_result.
  Variable same_type : name -> name -> bool.
  Variable make_entry : name -> N -> Dnl_Model.fingerprint.
  Variable rand : nat -> nat.
  Variable face_order : list N -> list N.
  Variable strategies : name -> strategy.
  Notation step := (fw_step sort_nexthops create_strategy same_type make_entry rand face_order strategies).
  Notation reachable := (fw_reachable sort_nexthops create_strategy same_type make_entry rand face_order strategies).
  Hypothesis W : world_ok sort_nexthops same_type face_order.
  Notation inv_of R := (proj1 (reachable_inv _ _ _ _ _ _ _ W _ R)).

  (** C28: an Interest that loops is not forwarded: the PIT stays as it is, and all that is sent is
      at most a Nack of reason Duplicate, back over a point-to-point link *)
  Theorem C28_loop s f i s' l : reachable s -> ev_ok s (EvInterest f i) -> step s (EvInterest f i) = Some s' -> added s s' l ->
    Dnl_Model.dnl_has make_entry (fw_dnl s) (i_name i) (i_nonce i) = true \/ looping s f i ->
    (forall k, pit_at (fw_t s') k = pit_at (fw_t s) k) /\ fw_cs s' = fw_cs s /\ fw_dnl s' = fw_dnl s /\
    forall x, x ∈ l -> x = Rx_interest f i \/ exists j, x = Tx_nack f j NACK_DUPLICATE /\ one_hop i j /\ p2p_face s f.
  Proof. intros R. by apply (loop_all sort_nexthops create_strategy same_type make_entry rand face_order strategies), (inv_of R). Qed.
  (** any other Interest that the hop limit and scope let pass is given a PIT entry *)
  Theorem C28_accept s f i s' : reachable s -> ev_ok s (EvInterest f i) -> step s (EvInterest f i) = Some s' ->
    takes_interest make_entry s (EvInterest f i) (key_of i) f i -> is_Some (pit_at (fw_t s') (key_of i)).
  Proof.
    intros R Ho H%step_event (_ & _ & Hhop & Hsc & Hdn & Hnl). pose proof (inv_of R) as I. simpl in H. pose proof Ho as (_ & Hlife & _).
    eapply interest_cases in H as (fc & Hf & Hc); [|done|done].
    destruct Hc as [Hz _|_ Hloc Hn%is_localhost_spec _|Hz _ Hp']; [done|destruct (Hsc Hn) as (fc' & ? & ?); congruence|].
    destruct Hp' as [Hd _|i2 e new s1 _ Hi2 Hins Hp']; [congruence|].
    assert (Hk2 : key_of i2 = key_of i) by (subst i2; by apply one_hop_i2). destruct (i2_kept (fw_regions s) i) as (_ & _ & Hno2 & Hl2). rewrite <- Hi2 in Hno2, Hl2.
    pose proof (ins_e _ _ _ _ _ Hins) as He. rewrite Hk2 in He. simpl in He. change (fw_t (got (Rx_interest f i) inc_in_interests s)) with (fw_t s) in He.
    rewrite <- Hk2. destruct Hp' as [Hd _|c d _ _ _ _ [(sc & Hw & Hs') _]|s2 e3 s3 _ _ I2 Hm Hfw].
    - exfalso. apply Hnl. destruct (pit_at (fw_t s) (key_of i)) as [e1|] eqn:E1; simpl in He; subst e.
      + rewrite Hno2 in Hd. by apply (is_dup_spec s f fc i e1 I Hf E1).
      + by destruct (is_dup_new _ _ _ _ Hd).
    - assert (Ht : fw_t s' = fw_t sc) by (subst s'; by destruct (_ || _)). rewrite Ht, (proj2 (wrote_at _ _ _ _ _ Hw)). by eexists.
    - pose proof (ms_wrote _ _ _ _ _ _ _ _ _ Hm) as Hw. eapply forwards_satoms in Hfw; [|exact W|apply Hw|rewrite (proj1 (proj2 (proj2 (proj2 (i3_kept s2 i2))))); lia].
      eapply satoms_entry in Hfw as (_ & _ & Hx); [|apply Hw]. destruct (Hx _ (proj2 (wrote_at _ _ _ _ _ Hw))) as (e' & He' & _). by eexists.
  Qed.
  (** the nonces of a PIT entry that goes away unsatisfied are recorded in the dead nonce list, so
      that the Interest is not accepted again; the list holds at least 1024 *)
  Theorem C28_recorded s k s' e : reachable s -> ev_ok s (EvPitTimer k) -> step s (EvPitTimer k) = Some s' ->
    pit_at (fw_t s) k = Some e -> pe_satisfied e = false -> length (pe_out e) <= 1024 ->
    forall g r, out_record_of s k g r -> Dnl_Model.dnl_has make_entry (fw_dnl s') (pk_name k) (fr_nonce (or_rec r)) = true.
  Proof.
    intros R Ho H%step_event He Hs Hlen g r (e' & He' & Hr & _). rewrite He in He'. injection He' as <-. simpl in H. apply timer_case in H as [e0 Hz]; [|apply (inv_of R)].
    destruct (fz_dnl _ _ _ _ _ _ Hz) as (s1 & H1 & ->). apply dnl_exact in H1 as (e1 & t & He1 & -> & Ht). rewrite He in He1. injection He1 as <-. specialize (Ht Hs).
    destruct (reachable_dnl sort_nexthops create_strategy same_type make_entry rand face_order strategies W s R) as [h Hh].
    simpl in Ht. apply elem_of_list_split in Hr as (l1 & l2 & Hl). rewrite Hl, fmap_app in Ht. apply Forall2_app_inv_l in Ht as (t1 & t2 & Ht1 & Ht2 & ->).
    rewrite fmap_cons in Ht2. inversion Ht2 as [|x o l0 t3 (c & ->) Ht3]; subst. unfold Dnl_Model.dnl_run. rewrite foldl_app.
    assert (Ha : Dnl_Spec.dnl_after make_entry (h ++ t1) (Dnl_Model.dnl_run make_entry (fw_dnl s) t1)).
    { destruct Hh as (l & d0 & H0 & Hd). exists l, d0. split; [done|]. unfold Dnl_Model.dnl_run in *. by rewrite foldl_app, Hd. }
    apply (Dnl_Proof.retained_min make_entry _ _ _ _ c t3 Ha). apply Forall2_length in Ht3. rewrite fmap_length in Ht3.
    assert (Hn : forall t, Dnl_Spec.n_inserts t <= length t) by (intros t; unfold Dnl_Spec.n_inserts; apply filter_length).
    specialize (Hn t3). rewrite Hl, app_length in Hlen. simpl in Hlen. lia.
  Qed.

  (** C29: at every point every PIT entry has one pending expiry timer, *)
  Theorem C29_armed s k e : reachable s -> pit_at (fw_t s) k = Some e -> exists t, pe_timer e = Some t.
  Proof. intros R He. by apply (reachable_timed sort_nexthops create_strategy same_type make_entry rand face_order strategies W s R k). Qed.
  (** which can fire from the time it is set to, and then always succeeds: the entry is removed,
      and no other is touched *)
  Theorem C29_fires s k s' : reachable s -> step s (EvPitTimer k) = Some s' ->
    forall k', pit_at (fw_t s') k' = if decide (k' = k) then None else pit_at (fw_t s) k'.
  Proof. intros R H%step_event k'. simpl in H. apply timer_case in H as [e Hz]; [|apply (inv_of R)]. apply (fz_pits _ _ _ _ _ _ Hz). Qed.
  (** nothing else removes an entry *)
  Theorem C29_only s ev s' k : reachable s -> ev_ok s ev -> step s ev = Some s' -> is_Some (pit_at (fw_t s) k) -> pit_at (fw_t s') k = None -> ev = EvPitTimer k.
  Proof. intros R Ho H%step_event Hs Hn. by eapply (event_only_timer sort_nexthops create_strategy same_type make_entry rand face_order strategies W); [apply (inv_of R)|..]. Qed.
  (** what the timer is set to: at once when Data arrives or is in the content store, or when
      every upstream has sent a Nack; otherwise, when an Interest arrives, the last deadline of
      the downstreams, cut to whole milliseconds from now.  Nothing else changes it, if
      no strategy asks for another time; when strategies may reject an Interest ([rej]), the
      timer may be set to fire at once. *)
  Theorem C29_set rej s ev s' k e' : (forall inst, patient rej (strategies inst)) -> reachable s -> ev_ok s ev -> step s ev = Some s' -> pit_at (fw_t s') k = Some e' ->
    (exists e, pit_at (fw_t s) k = Some e /\ pe_timer e' = pe_timer e /\ (forall f i, ~ takes_interest make_entry s ev k f i) /\ ~ takes_data s ev k /\ ~ takes_nack s ev k) \/
    ((takes_data s ev k \/ takes_nack s ev k \/ exists f i d, takes_interest make_entry s ev k f i /\ cs_answers s i d /\ forall g, not_waiting s g k) /\ pe_timer e' = Some (now (fw_t s))) \/
    (exists f i D t, takes_interest make_entry s ev k f i /\ last_deadline s f i D /\ pe_timer e' = Some t /\ (t <= D < t + MS)%Z /\ (now (fw_t s) <= t)%Z) \/
    (rej /\ pe_timer e' = Some (now (fw_t s))).
  Proof.
    intros P R Ho H%step_event Hk. eapply (event_timer sort_nexthops create_strategy same_type make_entry rand face_order strategies W true rej (fun _ => P)) in Hk; [|apply (inv_of R)|done|done].
    destruct Hk as [e U1 U2 U3 He [Ht _]|Hd Ht _|f i Hi (d & Hd) Hno Ht _|e Hn _ Ht _|f i t D Hi Ht HD H1 H2 _].
    - destruct (Ht eq_refl) as [->|?]; [|by right; right; right]. left. by exists e.
    - right; left. split; [by left|by apply Ht].
    - right; left. split; [|by apply Ht]. right; right. exists f, i, d. split; [done|]. split; [done|]. intros g r. apply Hno.
    - right; left. split; [by right; left|by apply Ht].
    - destruct (Ht eq_refl) as [->|?]; [|by right; right; right]. right; right; left. by exists f, i, D, t.
  Qed.

  (** C30: a Nack goes over a point-to-point link; it answers the Interest that is being dropped as
      a loop, or the Interest of an in-record of that face, which is gone afterwards *)
  Theorem C30_nack s ev s' l g j r : reachable s -> ev_ok s ev -> step s ev = Some s' -> added s s' l -> Tx_nack g j r ∈ l ->
    p2p_face s g /\
    ((exists i, ev = EvInterest g i /\ one_hop i j /\ r = NACK_DUPLICATE) \/
     (asks s ev g (key_of j) j /\ not_waiting s' g (key_of j))).
  Proof.
    intros R Ho H Hl Hx. eapply event_any in Hx; [|done..].
    assert (R' : reachable s') by (by eapply fw_reach_step). pose proof (inv_of R') as I'. pose proof (inv_of R) as I.
    assert (Hsio : forall fresh K k, sio fresh K k s s' (Tx_nack g j r) -> (forall g j, fresh g j -> asks s ev g k j) ->
      p2p_face s g /\ ((exists i, ev = EvInterest g i /\ one_hop i j /\ r = NACK_DUPLICATE) \/ (asks s ev g (key_of j) j /\ not_waiting s' g (key_of j)))).
    { intros fresh K k Hs Hf. inversion Hs as [| |g' j' r' fc lr L HK Hg Hp Hk Hi Hgone]; subst. split; [by exists fc|]. right. split; [eapply in_from_asks; [exact Hi|apply Hf]|by apply not_waiting_gone]. }
    inversion Hx as [| | |f i j' Hj Hp|f i j' d' fc Hj Htok Hs Hfc Hlo Hgone| |f i i3 x Hj Htok Hnh Hs|f d' k x Hm Hs|f d' g' k e r' fc Hm He Hr Hg Ht Hfc Hlo Hb Hgone|f i r' k x Hs|inst arg k x Hs|p f c k x Hs]; subst.
    - split; [done|]. left. by exists i.
    - eapply Hsio; [exact Hs|]. intros g' j' [-> ->]. right. by exists i.
    - eapply Hsio; [exact Hs|]. by intros g' j' [].
    - eapply Hsio; [exact Hs|]. by intros g' j' [].
    - eapply Hsio; [exact Hs|]. by intros g' j' [].
    - eapply Hsio; [exact Hs|]. by intros g' j' [].
  Qed.

  (** C35: the two counters of removed PIT entries *)
  Theorem C35_removed s k s' e : reachable s -> step s (EvPitTimer k) = Some s' -> pit_at (fw_t s) k = Some e ->
    let c := fw_cnt s in let c' := fw_cnt s' in
    if pe_satisfied e
    then c_satisfied c' = ((c_satisfied c + 1) mod 2 ^ 64)%N /\ c_unsatisfied c' = c_unsatisfied c
    else c_satisfied c' = c_satisfied c /\ c_unsatisfied c' = ((c_unsatisfied c + 1) mod 2 ^ 64)%N.
  Proof.
    intros R H%step_event He. simpl in H. apply timer_case in H as [e0 Hz]; [|apply (inv_of R)]. rewrite (fz_entry _ _ _ _ _ _ Hz) in He. injection He as ->.
    cbv zeta. rewrite (fz_cnt _ _ _ _ _ _ Hz). by destruct (pe_satisfied e).
  Qed.
  Theorem C35_else s ev s' : step s ev = Some s' -> (forall k, ev <> EvPitTimer k) ->
    c_satisfied (fw_cnt s') = c_satisfied (fw_cnt s) /\ c_unsatisfied (fw_cnt s') = c_unsatisfied (fw_cnt s).
  Proof.
    intros H Ht. assert (Hd : config_event ev \/ ~ config_event ev) by (destruct ev; ((left; done) || (right; by intros []))). destruct Hd as [Hd|Hd].
    - apply step_event in H. destruct ev; try done; simpl in H; by injection H as <-.
    - eapply event_calm in H; [|done|done]. by destruct H.
  Qed.
  (** an entry is satisfied iff Data arrived for it or was found in the content store since it was
      created; a new entry is not satisfied *)
  Theorem C35_satisfied s ev s' k e' : reachable s -> ev_ok s ev -> step s ev = Some s' -> pit_at (fw_t s') k = Some e' ->
    (pe_satisfied e' = true -> (exists e, pit_at (fw_t s) k = Some e /\ pe_satisfied e = true) \/ takes_data s ev k \/ exists f i d, takes_interest make_entry s ev k f i /\ cs_answers s i d) /\
    ((exists e, pit_at (fw_t s) k = Some e /\ pe_satisfied e = true) \/ takes_data s ev k -> pe_satisfied e' = true).
  Proof.
    intros R Ho H%step_event Hk. eapply (event_timer sort_nexthops create_strategy same_type make_entry rand face_order strategies W false True) in Hk; [|done|apply (inv_of R)|done|done].
    assert (Hex : forall f i, takes_interest make_entry s ev k f i -> ~ takes_data s ev k) by (intros f i (-> & _) (f' & d & ? & _); congruence).
    destruct Hk as [e U1 U2 U3 He [_ Hs]|Hd _ Hs|f i Hi (d & Hd) Hno _ Hs|e (f0 & i0 & r0 & -> & _) He _ Hs|f i t D Hi _ _ _ _ Hs]; rewrite Hs.
    - split; [intros Hx; left; by exists e|]. intros [(e0 & He0 & H0)|Hd]; [congruence|done].
    - split; [intros _; right; by left|done].
    - split; [intros _; right; right; by exists f, i, d|done].
    - split; [intros Hx; left; by exists e|]. intros [(e0 & He0 & H0)|(f1 & d1 & ? & _)]; [congruence|done].
    - destruct (pit_at (fw_t s) k) as [e|] eqn:E; simpl.
      + split; [intros Hx; left; by exists e|]. intros [(e0 & [= <-] & H0)|Hd]; [done|by destruct (Hex _ _ Hi)].
      + split; [done|]. intros [(e0 & ? & _)|Hd]; [done|by destruct (Hex _ _ Hi)].
  Qed.
End props.

(** ** Cases that meet the hypotheses *)
Lemma flood_patient : patient False flood.
Proof.
  split; intros; intros s; try discriminate; try (by constructor).
  - constructor. intros s' _. destruct (pit_get k (fw_t s')) as [e|]; [|constructor]. destruct (lookup_fib s' e) as [fe|]; [|constructor].
    induction (fe_nexthops fe) as [|nh l IH]; simpl; [constructor|]. destruct (next_hop_eligible _ _ _ _ _ _); [|done]. constructor; [done|by intros _].
  - constructor. intros s' _. destruct (pit_get k (fw_t s')) as [e|]; [|constructor]. destruct (pe_in e); repeat constructor.
Qed.
Example C29_ex_patient : forall inst, patient False (ex_strategies inst).
Proof. intros inst. apply flood_patient. Qed.
(** the Interest that 257 forwarded to 258 comes back from the ad hoc face 259 and from 258: only
    over the point-to-point link is a Nack of reason Duplicate sent *)
Definition nacks (l : list io) : list (N * N) := omap (fun x => match x with Tx_nack g _ r => Some (g, r) | _ => None end) l.
Definition ex_loop : list event := ex_faces ++ [EvFibAdd [gc 1] 258 0; EvInterest 257 (ex_interest ex_n 1)].
Example C28_ex :
  ex_holds (ex_loop ++ [EvInterest 259 (ex_interest ex_n 1)]) (fun s => bool_decide (nacks (fw_log s) = []) && (length (fw_log s) =? 3)) = true /\
  ex_holds (ex_loop ++ [EvInterest 258 (ex_interest ex_n 1)]) (fun s => bool_decide (nacks (fw_log s) = [(258, NACK_DUPLICATE)%N])) = true /\
  (* the retransmission over the same link is no loop *)
  ex_holds (ex_loop ++ [EvInterest 257 (ex_interest ex_n 1)]) (fun s => bool_decide (nacks (fw_log s) = [])) = true /\
  (* unsatisfied, the entry goes away after 4 s; the nonce is then known to be dead *)
  ex_holds (ex_loop ++ [EvTick 4000000000; EvPitTimer (key_of (ex_interest ex_n 1)); EvInterest 258 (ex_interest ex_n 1)])
    (fun s => bool_decide (nacks (fw_log s) = [(258, NACK_DUPLICATE)%N]) && Dnl_Model.dnl_has ex_hash (fw_dnl s) ex_n 1 && negb (Dnl_Model.dnl_has ex_hash (fw_dnl s) ex_n 2)) = true.
Proof. by vm_compute. Qed.
(** two downstreams: the timer follows the later deadline, down to the millisecond *)
Definition ex_timer (n : name) (s : fw) : option Z := pit_at (fw_t s) (key_of (ex_interest n 0)) ≫= pe_timer.
Definition lasting (ms : Z) (i : interest) : interest := Interest (i_name i) (i_cbp i) (i_mbf i) (i_nonce i) ms (i_hop i) (i_hint i) (i_nexthop i) (i_token i) (i_nondisc i).
Example C29_ex :
  ex_holds ex_loop (fun s => bool_decide (ex_timer ex_n s = Some 4000000000%Z)) = true /\
  ex_holds (ex_loop ++ [EvTick 1000000500; EvInterest 259 (lasting 1000 (ex_interest ex_n 2))]) (fun s => bool_decide (ex_timer ex_n s = Some 3999000500%Z)) = true /\
  ex_holds (ex_loop ++ [EvTick 1000000500; EvInterest 259 (lasting 9000 (ex_interest ex_n 2))]) (fun s => bool_decide (ex_timer ex_n s = Some 10000000500%Z)) = true /\
  ex_holds (ex_loop ++ [EvTick 5; EvData 258 (ex_data ex_n)]) (fun s => bool_decide (ex_timer ex_n s = Some 5%Z)) = true /\
  ex_holds (ex_loop ++ [EvTick 5; EvNack 258 (ex_interest ex_n 1) NACK_NO_ROUTE]) (fun s => bool_decide (ex_timer ex_n s = Some 5%Z)) = true.
Proof. by vm_compute. Qed.
(** flood passes on a Nack to the first downstream, if over a point-to-point link *)
Example C30_ex :
  ex_holds (ex_loop ++ [EvNack 258 (ex_interest ex_n 1) NACK_NO_ROUTE]) (fun s => bool_decide (nacks (fw_log s) = [(257, NACK_NO_ROUTE)%N])) = true /\
  ex_holds (ex_faces ++ [EvFibAdd [gc 1] 258 0; EvInterest 259 (ex_interest ex_n 1); EvNack 258 (ex_interest ex_n 1) NACK_NO_ROUTE]) (fun s => bool_decide (nacks (fw_log s) = [])) = true.
Proof. by vm_compute. Qed.
Definition sat_counts (s : fw) : N * N := (c_satisfied (fw_cnt s), c_unsatisfied (fw_cnt s)).
Example C35_ex :
  ex_holds ex_cached (fun s => bool_decide (sat_counts s = (1, 0)%N)) = true /\
  ex_holds (ex_loop ++ [EvTick 4000000000; EvPitTimer (key_of (ex_interest ex_n 1))]) (fun s => bool_decide (sat_counts s = (0, 1)%N)) = true /\
  ex_holds (ex_cached ++ [EvInterest 257 (ex_interest ex_n 5); EvPitTimer (key_of (ex_interest ex_n 1))]) (fun s => bool_decide (sat_counts s = (2, 0)%N)) = true.
Proof. by vm_compute. Qed.
Print Assumptions C28_loop.
Print Assumptions C28_accept.
Print Assumptions C28_recorded.
Print Assumptions C29_armed.
Print Assumptions C29_fires.
Print Assumptions C29_only.
Print Assumptions C29_set.
Print Assumptions C30_nack.
Print Assumptions C35_removed.
Print Assumptions C35_else.
Print Assumptions C35_satisfied.
