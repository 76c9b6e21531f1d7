(** Link reliability: C43, C44, C62. *)
From stdpp Require Import gmap.
From Verif Require Import Lib Lp_Model Rel_Model Rel_Spec Rel_Win Rel_Inv Rel_Step Rel_Dup Rel_Loss.

Local Open Scope N_scope.

Section props.
  Variables (max_retx : N) (idle_period : Z) (thr : N) (rto : list Z -> Z).
  Notation rel_step := (rel_step max_retx idle_period thr rto false).
  Notation process_incoming := (process_incoming max_retx idle_period thr rto false).
  Notation reached := (reached max_retx idle_period thr rto).
  Notation rel_hist := (rel_hist max_retx idle_period thr rto).

  (** No assertion fails, no invalid iterator is used and no loop runs for ever.  Only the range of TxSequences can
      be exceeded: when 2^64 TxSequences would lie between the oldest outstanding one and the newest. *)
  Theorem C43_defined s e : reached s -> rel_ok s e -> span s + cost s e <= SEQ -> exists s', rel_step s e = Some s'.
  Proof.
    intros [HI HE]%reached_inv Hok Hs. destruct (rel_step_ok max_retx idle_period thr rto s e HI HE Hok) as [[_ ?]|(s' & ? & _)]; [lia|eauto].
  Qed.

  (** A network packet is either outstanding, and no fate was reported, or not, and exactly one was. *)
  Theorem C43_one_fate s id seq tx b : reached s -> OTx id seq tx b ∈ r_log s ->
    (outstanding id s /\ fates id (r_log s) = []) \/ (~ outstanding id s /\ exists x, fates id (r_log s) = [OFate id x]).
  Proof.
    intros [(_ & Hi & Hb) _]%reached_inv Ht. pose proof (i_old _ _ _ _ _ Hi _ _ _ _ Ht) as Hlt. pose proof (i_fate _ _ _ _ _ Hi id) as Hf.
    rewrite (decide_True (P := (id < r_next s)%nat)) in Hf by done. destruct (r_nets s !! id) as [np|] eqn:En.
    - rewrite decide_True in Hf by eauto. left. split; [|apply nil_length_inv; lia]. destruct (np_frags np) as [|k fr] eqn:Ef; [by destruct (Hb id np)|].
      destruct (i_net _ _ _ _ _ Hi id np En) as (_ & _ & Ha). destruct (Ha k) as (u & ? & ?); [rewrite Ef; left|]. exists k, u. done.
    - destruct (decide (is_Some None)) as [[? ?]|]; [done|]. right. split.
      + intros (k & u & Hu & <-). destruct (i_un _ _ _ _ _ Hi k u Hu) as (np & ? & _). congruence.
      + destruct (fates id (r_log s)) as [|o [|]] eqn:Ef; cbn in Hf; try lia. assert (Ho : o ∈ fates id (r_log s)) by (rewrite Ef; left).
        apply fates_elem in Ho as (_ & x & ->). eauto.
  Qed.
  (** Acknowledged: every fragment was, and none was retransmitted.  Retransmitted: every fragment was
      acknowledged, and some fragment was retransmitted.  Exhausted: some fragment was retransmitted maxRetx times. *)
  Theorem C43_fate s id x : reached s -> OFate id x ∈ r_log s ->
    match x with
    | Acknowledged => (forall seq, transmitted id seq s -> acked id seq (r_log s)) /\ forall seq, retransmissions id seq (r_log s) = 0
    | Retransmitted => (forall seq, transmitted id seq s -> acked id seq (r_log s)) /\ exists seq, 0 < retransmissions id seq (r_log s)
    | Exhausted => exists seq, transmitted id seq s /\ retransmissions id seq (r_log s) = max_retx
    end.
  Proof.
    intros [(_ & Hi & Hb) _]%reached_inv Hx. destruct (i_done _ _ _ _ _ Hi id x Hx) as [_ H]. destruct x.
    - destruct H as [H1 H2]. split; [intros seq (tx & b & ?); eauto|]. intros seq. apply retx_none. intros tx Htx. assert (E : Acknowledged = Retransmitted) by (apply H2; eauto). done.
    - destruct H as [H1 H2]. split; [intros seq (tx & b & ?); eauto|]. destruct H2 as [(seq & tx & Hs) _]; [done|]. exists seq.
      apply elem_of_list_split in Hs as (l1 & l2 & ->). clear. induction l1 as [|o l1 IH]; cbn [app].
      + rewrite retx_same. lia.
      + pose proof (retx_le id seq o (l1 ++ OTx id seq tx true :: l2)). lia.
    - destruct H as (seq & H1 & tx & b & H2). exists seq. split; [exists tx, b; done|done].
  Qed.
  (** A fragment is retransmitted at most maxRetx times. *)
  Theorem C43_limit s id seq : reached s -> retransmissions id seq (r_log s) <= max_retx.
  Proof. intros [(_ & Hi & _) _]%reached_inv. apply (i_max _ _ _ _ _ Hi). Qed.
  (** As long as a packet is outstanding, each of its fragments is outstanding or was acknowledged. *)
  Theorem C43_outstanding s id seq : reached s -> outstanding id s -> transmitted id seq s ->
    (exists tx u, r_unacked s !! tx = Some u /\ ua_net u = id /\ lp_seq (ua_pkt u) = Some seq) \/ acked id seq (r_log s).
  Proof.
    intros [(_ & Hi & _) _]%reached_inv (k & u & Hu & <-) (tx & b & Ht). destruct (i_un _ _ _ _ _ Hi k u Hu) as (np & Hn & _). by apply (i_sent _ _ _ _ _ Hi _ np seq tx b).
  Qed.
  (** The table and the lists agree: an outstanding fragment is once in the list of its packet; what is in a list is
      outstanding.  It has a running timer, the TxSequence it was given last, and the count of its
      retransmissions. *)
  Theorem C43_tables s : reached s ->
    (forall tx u, r_unacked s !! tx = Some u -> exists np seq, r_nets s !! ua_net u = Some np /\ tx ∈ np_frags np /\
       lp_seq (ua_pkt u) = Some seq /\ lp_txseq (ua_pkt u) = Some tx /\ is_Some (ua_timer u) /\
       ua_retx u = retransmissions (ua_net u) seq (r_log s) /\ current (ua_net u) seq tx (r_log s)) /\
    (forall id np, r_nets s !! id = Some np -> np_frags np <> [] /\ NoDup (np_frags np) /\
       forall tx, tx ∈ np_frags np -> exists u, r_unacked s !! tx = Some u /\ ua_net u = id).
  Proof.
    intros [(_ & Hi & Hb) _]%reached_inv. split.
    - intros tx u Hu. destruct (i_un _ _ _ _ _ Hi tx u Hu) as (np & ? & ?). destruct (i_frag _ _ _ _ _ Hi tx u Hu) as (seq & ? & ? & ? & ? & ?). exists np, seq. done.
    - intros id np Hn. destruct (i_net _ _ _ _ _ Hi id np Hn) as (_ & ? & ?). split; [eauto|done].
  Qed.
  (** The start of the window is outstanding, if anything is; and nothing outstanding was sent before it: counting from
      it, with wrap-around, everything outstanding comes no later than the last TxSequence. *)
  Theorem C43_window s : reached s ->
    match r_first s with
    | None => r_unacked s = ∅
    | Some f => is_Some (r_unacked s !! f) /\ forall tx, is_Some (r_unacked s !! tx) -> seq_sub tx f <= seq_sub (r_last s) f
    end.
  Proof. intros [((_ & _ & H) & _ & _) _]%reached_inv. exact H. Qed.
  (** Sending a network packet: each fragment is sent once, in order, with a TxSequence that is not outstanding; it
      becomes outstanding, with a timer at the RTO.  Nothing else changes in the table. *)
  Theorem C43_send s frags pkt i s' : reached s -> rel_ok s (RlOut frags pkt i) -> rel_step s (RlOut frags pkt i) = Some s' ->
    exists txs sends, length txs = length frags /\ NoDup txs /\ (forall tx, tx ∈ txs -> r_unacked s !! tx = None) /\
      r_log s' = rev (OSend <$> sends) ++ first_logged (r_next s) frags txs ++ r_log s /\
      set_acks [] <$> sends = set_acks [] <$> tagged frags txs /\
      r_unacked s' = first_sent (r_now s) (rto (r_rtt s)) (r_next s) frags txs ∪ r_unacked s.
  Proof.
    intros [HI _]%reached_inv Hok H. cbn in H. destruct (handle_ok max_retx thr rto frags pkt i s HI Hok) as [[E _]|(s1 & l & E & I1 & _ & _ & F1 & txs & H1 & H2 & H3 & -> & H5 & H6)]; rewrite E in H; [done|].
    destruct (send_each_log max_retx (tagged frags txs) s1 s' I1) as (sends & L & Q & U); [|done|].
    { intros q Hq'. apply elem_of_list_lookup in Hq' as [j Hj]. destruct (Forall2_lookup_r _ _ _ _ _ F1 Hj) as (p & _ & tx & ->). apply bare_txseq with tx. by destruct p. }
    exists txs, sends. split; [done|]. split; [done|]. split; [done|]. split; [by rewrite L, H5|]. split; [done|]. by rewrite U.
  Qed.
  (** A timeout: the fragment is retransmitted, if it was not retransmitted maxRetx times; or else its packet is given up. *)
  Theorem C43_timeout s tx s' : reached s -> rel_ok s (RlTimer tx) -> rel_step s (RlTimer tx) = Some s' ->
    exists u L, r_unacked s !! tx = Some u /\ r_log s' = L ++ r_log s /\
      if decide (max_retx <= ua_retx u) then given_up s s' u L else resent (r_now s) (rto (r_rtt s)) s s' tx u L.
  Proof.
    intros [HI _]%reached_inv (u & t & Hu & _) H. cbn in H. destruct (on_lost _ _ _ _ s) as [[s1 r]|] eqn:E; [|done]. injection H as <-.
    destruct (lost_exact max_retx rto tx u s s1 r HI Hu E) as (L & H1 & H2). exists u, L. split; [done|]. split; [done|]. destruct (decide _); apply H2.
  Qed.
  (** An Ack of a fragment that is not outstanding changes nothing. *)
  Theorem C43_unknown_ack s a : r_unacked s !! a = None -> on_ack max_retx thr rto false a s = Some s.
  Proof. intros H. unfold on_ack. rewrite H. done. Qed.
  (** An Ack of an outstanding fragment: every other fragment sent before it and overtaken often enough is
      retransmitted, or its packet is given up; all others stay, unless their packet is given up.  The RTT is
      measured if the fragment was not retransmitted. *)
  Theorem C43_ack s a u s' : reached s -> r_unacked s !! a = Some u -> on_ack max_retx thr rto false a s = Some s' ->
    exists L, r_log s' = L ++ r_log s /\ OAck a ∈ L /\
      (r_rtt s' = if ua_retx u =? 0 then (r_now s - ua_sent u)%Z :: r_rtt s else r_rtt s) /\
      forall k v seq, r_unacked s !! k = Some v -> k <> a -> lp_seq (ua_pkt v) = Some seq ->
        if decide (before s k a /\ thr <= ua_greater v + 1)
        then (exists new, OTx (ua_net v) seq new true ∈ L) \/ OFate (ua_net v) Exhausted ∈ L
        else r_unacked s' !! k = Some (bumped s a k v) \/ OFate (ua_net v) Exhausted ∈ L.
  Proof. intros [HI _]%reached_inv Hu H. exact (ack_exact max_retx thr rto a u s s' HI Hu H). Qed.

  (** * C44 *)
  (** What is reported, and for which packets. *)
  Theorem C44_verdict s p s' b : reached s -> process_incoming p s = Some (s', b) ->
    match lp_frag p, lp_txseq p, lp_seq p with
    | Some _, Some _, Some seq => exists r, r_rx s' = Rx seq (r_now s) r (negb b) :: r_rx s
    | _, _, _ => b = true /\ r_rx s' = r_rx s
    end.
  Proof.
    intros [HI _]%reached_inv H. destruct (incoming_cases max_retx idle_period thr rto p s s' b HI H) as [(-> & Hv & Hn)|(sq & r & m & q & -> & [? ->] & [? ->] & _ & -> & _)]; [|eauto].
    assert (E : r_rx s' = r_rx s) by (unfold view in Hv; congruence). destruct Hn as [->|[->| ->]]; [done|destruct (lp_frag p); done|destruct (lp_frag p), (lp_txseq p); done].
  Qed.
  (** Reported as a duplicate only if the same Sequence was received before. *)
  Theorem C44_sound s p s' b seq : reached s -> process_incoming p s = Some (s', b) -> b = false -> lp_seq p = Some seq ->
    exists h, h ∈ r_rx s /\ rx_seq h = seq.
  Proof.
    intros R H -> Hs. destruct (reached_inv _ _ _ _ s R) as [HI _]. destruct (incoming_cases max_retx idle_period thr rto p s s' false HI H) as [(? & _)|(sq & r & m & q & Hs' & _ & _ & Hb & _)]; [done|].
    assert (sq = seq) as -> by congruence. apply (known_reached _ _ _ _ s R). left. destruct (decide (is_Some (r_recent s !! seq))); [done|]. rewrite bool_decide_false in Hb by done. done.
  Qed.
  (** Reported as a duplicate whenever the first copy was accepted no longer ago than the RTO, at each reception
      since.  Missing from the full statement: an earlier copy that was itself a duplicate, see below; and a clock
      that shows less than the RTO. *)
  Theorem C44_complete_partial s p s' b l1 h l2 :
    reached s -> process_incoming p s = Some (s', b) -> is_Some (lp_frag p) -> is_Some (lp_txseq p) ->
    r_rx s = l1 ++ h :: l2 -> rx_dup h = false -> lp_seq p = Some (rx_seq h) ->
    (forall g, g ∈ l1 -> rx_time g <= rx_time h + rx_rto g)%Z ->
    (forall g, g ∈ r_rx s -> rx_rto g < rx_time g)%Z ->
    b = false.
  Proof.
    intros R H [? Hf] [? Ht] Hl Hd Hs Hk Ha. destruct (reached_inv _ _ _ _ s R) as [HI _].
    destruct (incoming_cases max_retx idle_period thr rto p s s' b HI H) as [(_ & _ & Hn)|(sq & r & m & q & Hs' & _ & _ & Hb & _)]; [destruct Hn as [?|[?|?]]; congruence|].
    assert (sq = rx_seq h) as -> by congruence. destruct (keeps_reached _ _ _ _ s R l1 l2 h Hl Hd Ha Hk) as (z & Hz & _). rewrite bool_decide_true in Hb by (rewrite Hz; eauto). done.
  Qed.

  (** * C62 *)
  (** Every fragment received with a TxSequence is acknowledged once, in the order received: what was sent, followed
      by what waits, is what was received. *)
  Theorem C62_acks t m b l s : rel_hist (rel_new t m b) l s -> Forall no_acks l -> acks_sent (r_log s) ++ r_acks s = to_ack l.
  Proof. intros H Hl. by apply (acks_hist max_retx idle_period thr rto t m b l s). Qed.
  (** When the idle timer fires, all that waits is sent. *)
  Theorem C62_idle s s' : reached s -> rel_ok s RlIdle -> rel_step s RlIdle = Some s' -> r_acks s' = [].
  Proof.
    intros [HI [HE1 HE2]]%reached_inv (t & Ht & _) H. cbn in H. unfold on_idle in H.
    destruct (idle_ok max_retx (length (r_acks s)) (set_idle None s)) as (s1 & E & _ & _ & _ & A); try done.
    - cbn. destruct (r_enabled s) eqn:Ee; [done|]. rewrite HE2 in Ht; done.
    - cbn in *. congruence.
  Qed.
  (** A received fragment starts the idle timer, unless it is running. *)
  Theorem C62_timer s p s' b : reached s -> process_incoming p s = Some (s', b) -> is_Some (lp_frag p) -> is_Some (lp_txseq p) ->
    r_idle s' = match r_idle s with Some t => Some t | None => Some (r_now s + idle_period)%Z end.
  Proof.
    intros [HI _]%reached_inv H [? Hf] [? Ht]. unfold Rel_Model.process_incoming in H. rewrite Hf, Ht in H. destruct (negb _); [done|].
    destruct (acks_ok max_retx thr rto (lp_acks p) s HI) as [[E _]|(s1 & E & I1 & _ & D1)]; rewrite E in H; [done|].
    unfold side in D1. injection D1 as En Em Ee Er Eq Ei Ex Eh. destruct (lp_seq p).
    - destruct (purge _ _ _ _). cbn [r_idle set_recent set_rel_acks set_rx] in H. rewrite <- Ei, <- En. destruct (r_idle s1) eqn:E1; injection H as <- _; cbn; done.
    - cbn [r_idle set_recent set_rel_acks set_rx] in H. rewrite <- Ei, <- En. destruct (r_idle s1) eqn:E1; injection H as <- _; cbn; done.
  Qed.
End props.

(** * Examples *)
Definition rel_okb (s : rel) (e : rel_ev) : bool :=
  match e with
  | RlOut frags pkt i => r_enabled s && bool_decide (frags <> []) && forallb (fun p => match lp_seq p with Some _ => true | None => false end) frags && bool_decide (NoDup (map lp_seq frags))
  | RlIn p => r_enabled s
  | RlTimer tx => match r_unacked s !! tx with Some u => match ua_timer u with Some t => (t <=? r_now s)%Z | None => false end | None => false end
  | RlIdle => match r_idle s with Some t => (t <=? r_now s)%Z | None => false end
  | RlEnv d m b => (0 <=? d)%Z && ((m =? MTU_UNLIMITED)%Z || (16 <=? m)%Z)
  end.
Lemma rel_okb_ok s e : rel_okb s e = true -> rel_ok s e.
Proof.
  destruct e as [frags pkt i|p|tx| |d m b]; cbn.
  - intros [[[H1 H2%bool_decide_eq_true]%andb_true_iff H3]%andb_true_iff H4%bool_decide_eq_true]%andb_true_iff. split; [done|]. split; [done|]. split; [|done].
    intros p Hp. rewrite forallb_forall in H3. apply elem_of_list_In, H3 in Hp. destruct (lp_seq p); [eauto|done].
  - done.
  - destruct (r_unacked s !! tx) as [u|]; [|done]. destruct (ua_timer u) as [t|] eqn:E; [|done]. intros H%Z.leb_le. eauto.
  - destruct (r_idle s) as [t|]; [|done]. intros H%Z.leb_le. eauto.
  - intros [H1%Z.leb_le H2]%andb_true_iff. split; [done|]. apply orb_true_iff in H2 as [H2%Z.eqb_eq|H2%Z.leb_le]; [by left|by right].
Qed.
Section run.
  Variables (max_retx : N) (idle_period : Z) (thr : N) (rto : list Z -> Z).
  Fixpoint rel_run (l : list rel_ev) (s : rel) : option rel :=
    match l with
    | [] => Some s
    | e :: l' => if rel_okb s e then match rel_step max_retx idle_period thr rto false s e with Some s' => rel_run l' s' | None => None end else None
    end.
  Lemma rel_run_hist l : forall s0 l0 s s', rel_hist max_retx idle_period thr rto s0 l0 s -> rel_run l s = Some s' -> rel_hist max_retx idle_period thr rto s0 (l0 ++ l) s'.
  Proof.
    induction l as [|e l IH]; cbn; intros s0 l0 s s' H0 H; [injection H as <-; rewrite app_nil_r; done|].
    destruct (rel_okb s e) eqn:Eo; [|done]. destruct (rel_step _ _ _ _ _ s e) as [s1|] eqn:Es; [|done].
    change (l0 ++ e :: l) with (l0 ++ [e] ++ l). rewrite app_assoc. eapply IH; [|done]. econstructor; [done|by apply rel_okb_ok|done].
  Qed.
End run.
Definition ex_rto (l : list Z) : Z := 100.
Notation ex_run := (rel_run 1 5 3 ex_rto).
Lemma ex_reached l s : ex_run l (rel_new 1000 MTU_UNLIMITED true) = Some s -> reached 1 5 3 ex_rto s.
Proof. intros H. exists 1000%Z, MTU_UNLIMITED, true, l. split; [by left|]. apply (rel_run_hist 1 5 3 ex_rto l _ [] _ _ (rh_nil _ _ _ _ _) H). Qed.
Definition ex_frag (seq : N) : lp := set_seq (Some seq) (set_frag (Some [6; 1; seq]) lp_empty).
Definition ex_ack (l : list N) : lp := set_acks l lp_empty.
Definition ex_in (seq tx : N) : lp := set_txseq (Some tx) (ex_frag seq).
Definition no_sends (l : list rel_out) : list rel_out := List.filter (fun o => match o with OSend _ => false | _ => true end) l.
Global Instance lp_eq : EqDecision lp.
Proof. solve_decision. Defined.
Global Instance fate_eq : EqDecision fate.
Proof. solve_decision. Defined.
Global Instance rel_out_eq : EqDecision rel_out.
Proof. solve_decision. Defined.
Global Instance rx_eq : EqDecision rx.
Proof. solve_decision. Defined.

(** two packets: the first has two fragments, one is retransmitted after a timeout *)
Definition ex_two : list rel_ev :=
  [RlOut [ex_frag 10; ex_frag 11] (ex_frag 10) true; RlOut [ex_frag 12] (ex_frag 12) false; RlEnv 100 MTU_UNLIMITED true;
   RlTimer 0; RlIn (ex_ack [2; 77]); RlIn (ex_ack [1]); RlIn (ex_ack [3])].
Example ex_retransmitted :
  match ex_run ex_two (rel_new 1000 MTU_UNLIMITED true) with
  | Some s => bool_decide (no_sends (r_log s) =
      [OFate 0 Retransmitted; OAck 3; OAck 1; OFate 1 Acknowledged; OAck 2; OTx 0 10 3 true; OTx 1 12 2 false; OTx 0 11 1 false; OTx 0 10 0 false]) && bool_decide (r_first s = None)
  | None => false
  end = true.
Proof. vm_compute. reflexivity. Qed.
(** the second timeout of the same fragment is one too many: the other fragment goes too *)
Example ex_exhausted :
  match ex_run (take 4 ex_two ++ [RlEnv 100 MTU_UNLIMITED true; RlTimer 3]) (rel_new 1000 MTU_UNLIMITED true) with
  | Some s => bool_decide (take 2 (r_log s) = [ODropped (ex_frag 10); OFate 0 Exhausted]) && bool_decide (r_first s = Some 2) && bool_decide (is_Some (r_unacked s !! 2)) && negb (bool_decide (is_Some (r_unacked s !! 1)))
  | None => false
  end = true.
Proof. vm_compute. reflexivity. Qed.
(** the third Ack of a later TxSequence makes a fragment lost *)
Example ex_overtaken :
  match ex_run [RlOut [ex_frag 10] (ex_frag 10) true; RlOut [ex_frag 11; ex_frag 12; ex_frag 13] (ex_frag 11) true; RlIn (ex_ack [1; 2; 3])] (rel_new 1000 MTU_UNLIMITED true) with
  | Some s => bool_decide (take 3 (no_sends (r_log s)) = [OTx 0 10 4 true; OFate 1 Acknowledged; OAck 3])
  | None => false
  end = true.
Proof. vm_compute. reflexivity. Qed.
(** a duplicate; a copy that comes late enough is new; Acks *)
Example ex_duplicate :
  match ex_run [RlIn (ex_in 5 70); RlEnv 50 MTU_UNLIMITED true; RlIn (ex_in 5 71); RlEnv 51 MTU_UNLIMITED true; RlIn (ex_in 6 72); RlIn (ex_in 5 73); RlIdle]
    (rel_new 1000 MTU_UNLIMITED true) with
  | Some s => bool_decide (r_rx s = [Rx 5 1101 100 false; Rx 6 1101 100 false; Rx 5 1050 100 true; Rx 5 1000 100 false]) &&
              bool_decide (acks_sent (r_log s) = [70; 71; 72; 73]) && bool_decide (r_acks s = [])
  | None => false
  end = true.
Proof. vm_compute. reflexivity. Qed.

(** In that run the last copy of Sequence 5 comes 51 after an earlier copy, and the RTO is 100 all the time: but it is
    accepted as new.  The full statement of C44 is false: only the first copy counts, not a copy that is itself a
    duplicate. *)
Theorem C44_complete_refuted :
  exists s h g, reached 1 5 3 ex_rto s /\ h ∈ r_rx s /\ g ∈ r_rx s /\ rx_seq h = rx_seq g /\ rx_dup h = false /\
    (rx_time g < rx_time h <= rx_time g + ex_rto [])%Z.
Proof.
  assert (H : match ex_run [RlIn (ex_in 5 70); RlEnv 50 MTU_UNLIMITED true; RlIn (ex_in 5 71); RlEnv 51 MTU_UNLIMITED true; RlIn (ex_in 6 72); RlIn (ex_in 5 73)]
    (rel_new 1000 MTU_UNLIMITED true) with
    | Some s => bool_decide (r_rx s = [Rx 5 1101 100 false; Rx 6 1101 100 false; Rx 5 1050 100 true; Rx 5 1000 100 false])
    | None => false
    end = true) by (vm_compute; reflexivity).
  destruct (ex_run _ _) as [s|] eqn:E; [|done]. apply bool_decide_eq_true in H. exists s, (Rx 5 1101 100 false), (Rx 5 1050 100 true).
  split; [by eapply ex_reached|]. rewrite H. split; [left|]. split; [right; right; left|]. cbn. unfold ex_rto. split; [done|]. split; [done|]. lia.
Qed.

(** Line 337 reads a fragment that line 330 erased, if TRACE messages are logged: a retransmission is undefined. *)
Theorem C43_trace_refuted :
  exists s, reached 1 5 3 ex_rto s /\ rel_ok s (RlTimer 0) /\ rel_step 1 5 3 ex_rto true s (RlTimer 0) = None.
Proof.
  assert (H : match ex_run (take 3 ex_two) (rel_new 1000 MTU_UNLIMITED true) with
    | Some s => rel_okb s (RlTimer 0) && match rel_step 1 5 3 ex_rto true s (RlTimer 0) with None => true | _ => false end
    | None => false
    end = true) by (vm_compute; reflexivity).
  destruct (ex_run _ _) as [s|] eqn:E; [|done]. apply andb_true_iff in H as [H1 H2]. exists s. split; [by eapply ex_reached|]. split; [by apply rel_okb_ok|]. by destruct (rel_step _ _ _ _ _ _ _).
Qed.

Print Assumptions C43_defined.
Print Assumptions C43_one_fate.
Print Assumptions C43_fate.
Print Assumptions C43_limit.
Print Assumptions C43_outstanding.
Print Assumptions C43_tables.
Print Assumptions C43_window.
Print Assumptions C43_send.
Print Assumptions C43_timeout.
Print Assumptions C43_unknown_ack.
Print Assumptions C43_ack.
Print Assumptions C43_trace_refuted.
Print Assumptions C44_verdict.
Print Assumptions C44_sound.
Print Assumptions C44_complete_partial.
Print Assumptions C44_complete_refuted.
Print Assumptions C62_acks.
Print Assumptions C62_idle.
Print Assumptions C62_timer.
