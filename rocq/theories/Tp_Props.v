(** Transports: C48, C49, C50, C64. *)
From Verif Require Import Lib Lp_Model Tp_Model Tp_Spec Tp_Proof Tp_Send.

(** * C48 *)
(** What a connection delivered is exactly the packets in the octets that it received, in order, however they were cut; the receive buffer has the rest.
    For every history, also with reconnections. *)
Theorem C48_framed x : x_reached x -> framed (x_in x) (x_got x) (x_buf x).
Proof. intros (tcp & perm & l & H). eapply hist_fr; [exact H|]. apply framed_nil. Qed.

Lemma framed_prefix s ps rest qs y : framed s ps rest -> Forall is_tlv qs -> s ++ y = concat qs ->
  ps = take (length ps) qs /\ rest ++ y = concat (drop (length ps) qs).
Proof.
  intros (-> & F & _). revert qs. induction F as [|p ps Hp F IH]; intros qs Fq E; simpl in *; [done|].
  destruct Fq as [|q qs Hq Fq]; simpl in E.
  - exfalso. rewrite <- !app_assoc in E. apply app_eq_nil in E as [-> _]. apply tlv_long in Hp. simpl in Hp. lia.
  - rewrite <- !app_assoc in E. destruct (tlv_unique _ _ _ _ E Hp Hq) as [<- E']. rewrite app_assoc in E'. destruct (IH qs Fq E') as [E1 E2]. simpl. split; [by f_equal|done].
Qed.
(** When the sender's octets are packets: those that have arrived whole were delivered, and no others *)
Theorem C48_packets x qs y : x_reached x -> Forall is_tlv qs -> x_in x ++ y = concat qs ->
  x_got x = take (length (x_got x)) qs /\ x_buf x ++ y = concat (drop (length (x_got x)) qs).
Proof. intros H%C48_framed F E. by eapply framed_prefix. Qed.
Theorem C48_all x qs : x_reached x -> Forall is_tlv qs -> x_in x = concat qs -> x_got x = qs /\ x_buf x = [].
Proof.
  intros H F E. apply C48_framed in H. assert (G : framed (x_in x) qs []).
  { split; [by rewrite app_nil_r|]. split; [done|]. intros e r Er He. apply tlv_long in He. symmetry in Er. apply app_eq_nil in Er as [-> _]. simpl in He. lia. }
  by apply (framed_unique _ _ _ _ _ H G).
Qed.
(** Received octets are handled: if too much is left with no packet in it, the transport fails; otherwise it goes on receiving *)
Theorem C48_receive x d l ps rest : plain x -> x_ready x = HRecv None d :: l -> x_state x = TUp -> framed (x_in x ++ d) ps rest ->
  exists x', x_step x XRun = Some x' /\ x_in x' = x_in x ++ d /\ x_got x' = ps /\ x_buf x' = rest /\
    (((len rest < MAX_PACKET)%N /\ x_state x' = TUp /\ x_r x' = 1%nat) \/ (len rest = MAX_PACKET /\ x_state x' = TFailed /\ HClose ∈ x_ready x')).
Proof.
  intros Hp Er Es F. pose proof (plain_pl x Hp) as P. assert (Fr : framed (x_in x) (x_got x) (x_buf x)) by (destruct Hp as (a & b & c & Hh & _); apply C48_framed; by exists a, b, c).
  destruct (framed_ex (x_buf x ++ d)) as (es & rest' & Fe). destruct (framed_unique _ _ _ _ _ (framed_app _ _ _ _ _ _ Fr Fe) F) as [<- ->].
  destruct (p_fit x P d) as [Hd Hfit]; [rewrite Er; left|]. assert (Hr : x_r x = 0%nat).
  { pose proof (p_recv x P) as Hr. rewrite Er in Hr. unfold datas in Hr. simpl in Hr. lia. }
  assert (G : exists x', x_step x XRun = Some x' /\ (((len rest < MAX_PACKET)%N /\ x_state x' = TUp /\ x_r x' = 1%nat) \/ (len rest = MAX_PACKET /\ x_state x' = TFailed /\ HClose ∈ x_ready x'))).
  { cbn -[parse]. rewrite Er. cbn -[parse]. destruct (parse _ _) as [es' rest'] eqn:Ep. apply parse_spec in Ep; [|done]. destruct (framed_unique _ _ _ _ _ Ep Fe) as [-> ->]. destruct Ep as (Ec & _).
    assert (Hle : (len rest <= MAX_PACKET)%N /\ (length rest <> length (x_buf x ++ d) -> (len rest < MAX_PACKET)%N)).
    { pose proof (f_equal length Ec) as El. rewrite !app_length in El. unfold len in *. rewrite app_length. split; lia. } destruct Hle as [Hle Hlt].
    destruct rest as [|b rest].
    - unfold start_receive. simpl. rewrite Es. eexists. split; [done|]. left. simpl. rewrite Es, Hr. done.
    - destruct (Nat.eqb_spec (length (b :: rest)) (length (x_buf x ++ d))) as [El|El]; cbn [negb]; cbv iota.
      + destruct (N.eqb_spec (len (b :: rest)) MAX_PACKET) as [Em|Em].
        * unfold set_state. simpl. rewrite Es. simpl. eexists. split; [done|]. right. split; [done|]. unfold do_close. simpl. destruct (x_tcp x); simpl; destruct (x_open x); simpl; (split; [done|]; apply elem_of_app; right; left).
        * unfold start_receive. simpl. rewrite Es. eexists. split; [done|]. left. simpl. rewrite Es, Hr. split; [lia|done].
      + unfold start_receive. simpl. rewrite Es. eexists. split; [done|]. left. simpl. rewrite Es, Hr. split; [by apply Hlt|done]. }
  destruct G as (x' & Hx & G). exists x'. split; [done|]. assert (H' : handle_receive None d (set_ready l x) = Some x') by (revert Hx; cbn -[handle_receive]; by rewrite Er).
  destruct (handle_receive_rcv d (set_ready l x) x' es rest Fe H') as (-> & -> & ->). done.
Qed.
(** and packets that are not too large never make it fail *)
Theorem C48_never_fails x d l qs y : plain x -> x_ready x = HRecv None d :: l -> x_state x = TUp ->
  Forall (fun p => is_tlv p /\ (len p <= MAX_PACKET)%N) qs -> (x_in x ++ d) ++ y = concat qs ->
  exists x', x_step x XRun = Some x' /\ x_state x' = TUp /\ x_r x' = 1%nat.
Proof.
  intros Hp Er Es Fq E. destruct (framed_ex (x_in x ++ d)) as (ps & rest & F). destruct (C48_receive x d l ps rest Hp Er Es F) as (x' & Hx & _ & _ & _ & [(_ & H1 & H2)|(Hl & _)]); [by exists x'|]. exfalso.
  assert (Fq1 : Forall is_tlv qs) by (eapply Forall_impl; [exact Fq|]; by intros ? [? _]). destruct (framed_prefix _ _ _ _ _ F Fq1 E) as [_ E2].
  assert (Fd : Forall (fun p => is_tlv p /\ (len p <= MAX_PACKET)%N) (drop (length ps) qs)) by by apply Forall_drop. destruct (drop (length ps) qs) as [|p q]; simpl in E2.
  - apply app_eq_nil in E2 as [-> _]. done.
  - apply Forall_cons_1 in Fd as [[Hp1 Hp2] _]. destruct F as (_ & _ & N). apply app_eq_app in E2 as [k [[E2 _]|[E2 _]]].
    + by apply (N p k).
    + destruct k as [|z k]; [rewrite app_nil_r in E2; subst; by apply (N rest []); rewrite ?app_nil_r|]. subst p. rewrite len_app in Hp2. unfold len in Hp2, Hl. simpl in Hp2. lia.
Qed.
(** the receive buffer always has room *)
Theorem C48_room x : plain x -> x_state x = TUp -> (len (x_buf x) < MAX_PACKET)%N.
Proof. intros P. exact (p_buf x (plain_pl x P)). Qed.

(** * C49 *)
(** A packet is accepted iff the transport is up *)
Theorem C49_accepted x p x' : x_step x (XSend p) = Some x' -> x_acc x' = if decide (x_state x = TUp) then x_acc x ++ [p] else x_acc x.
Proof.
  simpl. unfold transport_send, do_send. destruct (x_state x); try (by intros [= <-]). destruct (x_sendq x); simpl; [unfold send_from_queue; simpl|]; by intros [= <-].
Qed.
(** What the socket took is a beginning of the accepted packets, in order *)
Theorem C49_stream x : plain x -> x_net x `prefix_of` concat (x_acc x).
Proof.
  intros P%plain_pl. destruct (x_open x) eqn:Eo; [eapply live_prefix; exact (p_open x P Eo)|]. by apply (p_closed x P Eo).
Qed.
(** The send queue has the packets not yet written, the first maybe in part; and its reported length is theirs *)
Theorem C49_queue x : plain x -> x_state x <> TClosed ->
  exists dn part, x_acc x = dn ++ x_sendq x /\ x_net x = concat dn ++ part /\ x_qbytes x = total (x_sendq x) /\
    match x_sendq x with [] => part = [] | p :: _ => part `prefix_of` p end.
Proof.
  intros P%plain_pl Hs. assert (Eo : x_open x = true) by (destruct (x_open x) eqn:Eo; [done|]; by destruct (p_closed x P Eo)).
  destruct (p_open x P Eo) as (dn & Ea & HL). pose proof (p_bytes x P) as Hb. exists dn.
  destruct HL as [(_ & _ & Eq & En)|[(h & q' & a & b & Eq & -> & _ & _ & _ & En)|[(h & q' & Eq & _ & _ & En)|(h & q' & a & b & Eq & -> & _ & En & _)]]]; rewrite Eq in *.
  - exists []. by rewrite (app_nil_r (concat dn)).
  - exists a. do 3 (split; [done|]). by exists b.
  - exists h. done.
  - exists a. do 3 (split; [done|]). by exists b.
Qed.
(** One write at a time; and none is forgotten *)
Theorem C49_one x : plain x -> x_state x <> TClosed -> (length (x_w x) + length (List.filter is_send (x_ready x)) <= 1)%nat.
Proof.
  intros P%plain_pl Hs. assert (Eo : x_open x = true) by (destruct (x_open x) eqn:Eo; [done|]; by destruct (p_closed x P Eo)). change (List.filter is_send (x_ready x)) with (sends (x_ready x)).
  destruct (p_open x P Eo) as (dn & Ea & HL). destruct HL as [(-> & -> & _)|[(h & q' & a & b & _ & _ & _ & -> & -> & _)|[(h & q' & _ & -> & -> & _)|(h & q' & a & b & _ & _ & -> & _ & [[-> _]|(e & n & -> & _)])]]]; simpl; lia.
Qed.
Theorem C49_progress x : plain x -> x_state x = TUp -> x_sendq x <> [] -> x_w x <> [] \/ exists h, h ∈ x_ready x /\ is_send h = true.
Proof.
  intros P%plain_pl Hs Hq. destruct (p_up x P Hs) as [Eo _].
  assert (K : forall h, h ∈ sends (x_ready x) -> exists h, h ∈ x_ready x /\ is_send h = true). { intros h Hh. exists h. unfold sends in Hh. rewrite elem_of_list_In, filter_In in Hh. by rewrite elem_of_list_In. }
  destruct (p_open x P Eo) as (dn & Ea & HL). destruct HL as [(_ & _ & ? & _)|[(h & q' & a & b & _ & _ & _ & -> & _)|[(h & q' & _ & _ & E & _)|(h & q' & a & b & _ & _ & _ & _ & [[_ Hx]|(e & n & E & _)])]]].
  - done.
  - by left.
  - right. eapply K. rewrite E. left.
  - by destruct Hx as [?|[?|?]]; congruence.
  - right. eapply K. rewrite E. left.
Qed.
(** No assertion of handleSend fails *)
Theorem C49_defined x r n l : plain x -> x_ready x = HSend r n :: l -> x_step x XRun <> None.
Proof.
  intros Hp%plain_pl Er. cbn -[handle_send]. rewrite Er. destruct (x_open x) eqn:Eo.
  - destruct (p_open x Hp Eo) as (dn & Ea & HL). rewrite Er in HL. unfold sends in HL. simpl in HL. destruct r as [e|].
    + simpl. unfold process_error, handle_error, set_state. simpl. rewrite (p_plain x Hp). pose proof (p_down x Hp). by destruct (x_state x), e.
    + destruct HL as [(_ & ? & _)|[(? & ? & ? & ? & _ & _ & _ & _ & ? & _)|[(h & q' & Eq & _ & E & _)|(? & ? & ? & ? & _ & _ & _ & _ & [[? _]|(? & ? & ? & _)])]]]; try done. injection E as -> _. simpl. rewrite Eq, N.eqb_refl. by destruct q'.
  - destruct (p_closed x Hp Eo) as (Es & _ & _ & E3 & _). destruct r as [e|]; [|exfalso; apply (E3 n), sends_in; [done|]; rewrite Er; left]. simpl. unfold process_error. simpl. by rewrite Es.
Qed.

(** * C50 *)
Theorem C50_path x : x_reached x -> path TUp (x_changes x) (x_state x).
Proof.
  intros (tcp & perm & l & H). remember (x_new tcp perm) as x0 eqn:E. induction H as [|l x e x' H IH Hok Hst]; [subst; constructor|]. destruct (step_hop _ _ _ Hst) as (l' & -> & Hp).
  clear -IH Hp. induction Hp as [|l b c Hp IHp Hd]; [done|]. simpl. by econstructor.
Qed.
Theorem C50_final x e x' : x_state x = TClosed -> x_step x e = Some x' -> x_state x' = TClosed /\ x_changes x' = x_changes x.
Proof.
  intros Hs (l' & El & Hp)%step_hop. rewrite El. rewrite Hs in Hp. clear -Hp. assert (l' = [] /\ x_state x' = TClosed) as [-> ->]; [|done]. induction Hp as [|l b c Hp [-> ->] Hd]; [done|]. inversion Hd.
Qed.
(** close: begins to close, or does nothing *)
Theorem C50_close x : (x_state x = TUp \/ x_state x = TDown -> exists x', x_step x XClose = Some x' /\ x_state x' = TClosing /\ HClose ∈ x_ready x') /\ (shutting (x_state x) -> x_step x XClose = Some x).
Proof.
  simpl. unfold transport_close. split.
  - assert (G : forall y, HClose ∈ x_ready (do_close y) /\ x_state (do_close y) = x_state y) by (intros y; unfold do_close, queue; destruct (x_tcp y); simpl; destruct (x_open y); simpl; (split; [apply elem_of_app; right; left|done])).
    intros [Es|Es]; rewrite Es; unfold set_state; rewrite Es; simpl; eexists; (split; [done|]); destruct (G (set_xstate TClosing x)) as [G1 G2]; done.
  - by intros [->|[->| ->]].
Qed.
Theorem C50_idempotent x x' : x_step x XClose = Some x' -> x_step x' XClose = Some x'.
Proof.
  intros H. apply C50_close. destruct (C50_close x) as [G1 G2]. destruct (x_state x) eqn:Es.
  - destruct G1 as (y & Hy & Ey & _); [by left|]. rewrite Hy in H. injection H as <-. by left.
  - destruct G1 as (y & Hy & Ey & _); [by right|]. rewrite Hy in H. injection H as <-. by left.
  - rewrite G2 in H by (by left). injection H as <-. by left.
  - rewrite G2 in H by (by right; left). injection H as <-. by right; left.
  - rewrite G2 in H by (by right; right). injection H as <-. by right; right.
Qed.
(** a read or write fails: nothing happens if it was cancelled or shut down, or the transport is on its way to be closed; otherwise a permanent
    TCP face goes down and is reconnected, and another one is closed, as failed unless the peer has ended the connection *)
Theorem C50_error x h e l : x_ready x = h :: l -> (exists n, h = HSend (Some e) n) \/ (exists d, h = HRecv (Some e) d) ->
  exists x', x_step x XRun = Some x' /\
    (shutting (x_state x) \/ e = EAborted \/ e = EShut -> x' = set_ready l x) /\
    (~ (shutting (x_state x) \/ e = EAborted \/ e = EShut) ->
       (x_tcp x = true /\ x_perm x = true -> x_state x' = TDown /\ HReconnect ∈ x_ready x') /\
       (~ (x_tcp x = true /\ x_perm x = true) -> x_state x' = (if decide (e = EEof) then TClosing else TFailed) /\ HClose ∈ x_ready x')).
Proof.
  intros Er Hh. assert (x_step x XRun = process_error e (set_ready l x)) as ->.
  { simpl. rewrite Er. by destruct Hh as [[n ->]|[d ->]]. }
  assert (Gc : forall y, HClose ∈ x_ready (do_close y) /\ x_state (do_close y) = x_state y) by (intros y; unfold do_close, queue; destruct (x_tcp y); simpl; destruct (x_open y); simpl; (split; [apply elem_of_app; right; left|done])).
  assert (Gr : forall y, HReconnect ∈ x_ready (queue HReconnect (cancel y)) /\ x_state (queue HReconnect (cancel y)) = x_state y) by (intros y; split; [unfold queue; simpl; apply elem_of_app; right; left|done]).
  assert (Hig : shutting (x_state x) \/ e = EAborted \/ e = EShut -> process_error e (set_ready l x) = Some (set_ready l x)).
  { unfold process_error. simpl. intros [[-> | [-> | ->]]|[-> | ->]]; [done..| |]; by destruct (x_state x). }
  destruct (decide (e = EAborted)) as [E1|E1]; [eexists; split; [apply Hig; auto|]; split; [done|intros []; auto]|].
  destruct (decide (e = EShut)) as [E2|E2]; [eexists; split; [apply Hig; auto|]; split; [done|intros []; auto]|].
  assert (Hs : shutting (x_state x) \/ x_state x = TUp \/ x_state x = TDown) by (unfold shutting; destruct (x_state x); auto).
  destruct Hs as [Hs|Hs]; [eexists; split; [apply Hig; auto|]; split; [done|intros []; auto]|].
  assert (process_error e (set_ready l x) = handle_error e (set_ready l x)) as -> by (unfold process_error; simpl; destruct Hs as [-> | ->]; by destruct e).
  assert (Hn : ~ (shutting (x_state x) \/ e = EAborted \/ e = EShut)) by (unfold shutting; intros [Hx|[?|?]]; [|done..]; destruct Hs as [Hs|Hs]; rewrite Hs in Hx; by destruct Hx as [?|[?|?]]).
  unfold handle_error. cbn [x_tcp x_perm set_ready]. destruct (x_tcp x && x_perm x) eqn:Etp.
  - apply andb_prop in Etp. assert (exists y, set_state TDown (set_ready l x) = Some y /\ x_state y = TDown) as (y & -> & Ey) by (unfold set_state; simpl; destruct Hs as [Hs|Hs]; rewrite Hs; simpl; eexists; (split; [reflexivity|]); done).
    eexists. split; [done|]. split; [by intros ?|]. intros _. destruct (Gr y) as [G1 G2]. split; [intros _; by rewrite G2|by intros []].
  - assert (~ (x_tcp x = true /\ x_perm x = true)) by (intros [E3 E4]; by rewrite E3, E4 in Etp).
    assert (exists y, set_state (match e with EEof => TClosing | _ => TFailed end) (set_ready l x) = Some y /\ x_state y = if decide (e = EEof) then TClosing else TFailed) as (y & -> & Ey).
    { unfold set_state; simpl; destruct Hs as [Hs|Hs]; rewrite Hs; destruct e; simpl; try done; eexists; (split; [reflexivity|]); done. }
    eexists. split; [done|]. split; [by intros ?|]. intros _. destruct (Gc y) as [G1 G2]. split; [by intros ?|]. intros _. by rewrite G2.
Qed.
(** another persistency: a permanent TCP face that is down and is permanent no longer fails; otherwise nothing else changes *)
Theorem C50_persistency x b : exists x', x_step x (XPersistency b) = Some x' /\ x_perm x' = b /\
  (x_tcp x = true /\ x_perm x = true /\ b = false /\ x_state x = TDown -> x_state x' = TFailed /\ HClose ∈ x_ready x' /\ x_timer x' = false) /\
  (~ (x_tcp x = true /\ x_perm x = true /\ b = false /\ x_state x = TDown) -> x' = set_xperm b x).
Proof.
  assert (Gc : forall y, HClose ∈ x_ready (do_close y) /\ x_state (do_close y) = x_state y /\ x_perm (do_close y) = x_perm y /\ (x_tcp y = true -> x_timer (do_close y) = false)).
  { intros y. unfold do_close, queue. destruct (x_tcp y); simpl; destruct (x_open y); simpl; (split; [apply elem_of_app; right; left|done]). }
  simpl. unfold change_persistency. destruct (x_tcp x && x_perm x && negb b) eqn:Eb.
  - apply andb_prop in Eb as [[E1 E2]%andb_prop E3%negb_true_iff]. cbn [x_state set_xperm]. destruct (x_state x) eqn:Es; try (eexists; split; [done|]; split; [done|]; split; [by intros (_ & _ & _ & ?)|done]).
    unfold set_state. simpl. rewrite Es. simpl. eexists. split; [reflexivity|]. destruct (Gc (set_xstate TFailed (set_xperm b x))) as (G1 & G2 & G3 & G4). split; [by rewrite G3|]. split.
    + intros _. split; [by rewrite G2|]. split; [done|]. by apply G4.
    + by intros [].
  - eexists. split; [done|]. split; [done|]. split; [|done]. intros (E1 & E2 & E3 & _). by rewrite E1, E2, E3 in Eb.
Qed.
(** a permanent TCP face that is down starts a new connection with nothing left of the old one, and waits for it; the timer starts another one *)
Theorem C50_reconnect x l : x_ready x = HReconnect :: l -> x_state x = TDown -> x_perm x = true ->
  exists x', x_step x XRun = Some x' /\ x_state x' = TDown /\ x_open x' = true /\ x_shut x' = false /\ x_sendq x' = [] /\ x_qbytes x' = 0%N /\ x_buf x' = [] /\
    x_w x' = [] /\ x_r x' = 0%nat /\ x_c x' = 1%nat /\ x_timer x' = true.
Proof. intros Er Es Ep. simpl. rewrite Er. unfold reconnect. simpl. rewrite Es, Ep. eexists. split; [reflexivity|]. done. Qed.
Theorem C50_timeout x : exists x', x_step x XTimer = Some x' /\ x_state x' = x_state x /\ x_open x' = false /\ x_w x' = [] /\ x_r x' = 0%nat /\ x_c x' = 0%nat /\ x_timer x' = false /\ HReconnect ∈ x_ready x'.
Proof. eexists. split; [reflexivity|]. simpl. repeat (split; [done|]). apply elem_of_app. right. left. Qed.
(** the new connection is there: the face is up and receives; it has failed: the timer is waited for; either way nothing happens to a face that is being closed *)
Theorem C50_connected x r l : x_ready x = HConn r :: l -> x_state x = TDown \/ shutting (x_state x) ->
  exists x', x_step x XRun = Some x' /\
    (x_state x = TDown /\ r = None -> x_state x' = TUp /\ x_r x' = S (x_r x) /\ x_timer x' = false /\ x_ready x' = l /\ x_open x' = x_open x /\ x_sendq x' = x_sendq x /\ x_buf x' = x_buf x /\ x_w x' = x_w x) /\
    (~ (x_state x = TDown /\ r = None) -> x' = set_ready l x).
Proof.
  intros Er Hs. simpl. rewrite Er. unfold handle_reconnect. simpl. destruct Hs as [Es|[Es|[Es|Es]]]; rewrite Es; [|eexists; split; [done|]; split; [by intros []|done]..].
  destruct r as [e|]; [eexists; split; [done|]; split; [by intros []|done]|]. unfold set_state. simpl. rewrite Es. simpl. eexists. split; [reflexivity|]. split; [done|by intros []].
Qed.
Print Assumptions C50_persistency. Print Assumptions C50_reconnect. Print Assumptions C50_timeout. Print Assumptions C50_connected.
(** nothing is accepted, or reaches the network, when it is closing, failed or closed *)
Theorem C50_silent x e x' : x_reached x -> shutting (x_state x) -> io_ok x e -> x_step x e = Some x' -> x_net x' = x_net x /\ x_acc x' = x_acc x.
Proof.
  intros R%reached_cl Hs Hok H. pose proof (c_shut x R Hs) as Hsh.
  assert (Hc : forall y, x_net (do_close y) = x_net y /\ x_acc (do_close y) = x_acc y) by (intros y; unfold do_close; destruct (x_tcp y); simpl; destruct (x_open y); simpl; done).
  assert (Hst : forall y, start_receive y = Some x' -> x_net x' = x_net y /\ x_acc x' = x_acc y) by (intros y; unfold start_receive; destruct (x_state y); [|done..]; by intros [= <-]).
  assert (He : forall e l, process_error e (set_ready l x) = Some x' -> x_net x' = x_net x /\ x_acc x' = x_acc x). { intros e0 l. unfold process_error. simpl. destruct Hs as [->|[->| ->]]; by intros [= <-]. }
  destruct e as [p| |b| | |i k|i e|d|e|r]; simpl in H; try (by injection H as <-).
  - unfold transport_send in H. destruct Hs as [Es|[Es|Es]]; rewrite Es in H; by injection H as <-.
  - destruct (C50_close x) as [_ G]. specialize (G Hs). simpl in G. rewrite G in H. by injection H as <-.
  - unfold change_persistency in H. destruct (_ && _); [|by injection H as <-]. simpl in H. destruct Hs as [Es|[Es|Es]]; rewrite Es in H; by injection H as <-.
  - destruct (x_ready x) as [|h l]; [by injection H as <-|]. destruct h as [r n|r d| | |r].
    + destruct r as [e|]; simpl in H; [by apply He in H|]. destruct (x_sendq x) as [|p q]; [done|]. destruct (_ =? _)%N; [|done]. destruct q; [by injection H as <-|]. unfold send_from_queue in H. simpl in H. by injection H as <-.
    + destruct r as [e|]; cbn -[parse] in H; [by apply He in H|]. destruct (parse _ _) as [es [|b rest]]; [by apply Hst in H|]. destruct (negb _); [by apply Hst in H|]. destruct (_ =? _)%N; [|by apply Hst in H].
      destruct (set_state TFailed _) as [y|] eqn:Es; [|done]. injection H as <-. destruct (Hc y) as [-> ->]. by apply set_state_eq in Es as [[-> _]|[-> _]].
    + unfold deferred_close in H. by apply set_state_eq in H as [[-> _]|[-> _]].
    + unfold reconnect in H. simpl in H. destruct Hs as [Es|[Es|Es]]; rewrite Es in H; by injection H as <-.
    + unfold handle_reconnect in H. simpl in H. destruct Hs as [Es|[Es|Es]]; rewrite Es in H; by injection H as <-.
  - exfalso. destruct Hok as (Ho & Hn & _). destruct Hsh; congruence.
Qed.
(** it does become closed: the handler waits, and does that *)
Theorem C50_pending x : x_reached x -> x_state x = TClosing \/ x_state x = TFailed -> HClose ∈ x_ready x.
Proof. intros R%reached_cl. apply (c_pending x R). Qed.
Theorem C50_closes x l : x_reached x -> x_ready x = HClose :: l -> exists x', x_step x XRun = Some x' /\ x_state x' = TClosed /\ x_open x' = false.
Proof.
  intros R%reached_cl Er. assert (Hs : shutting (x_state x)) by (apply (c_hclose x R); rewrite Er; left). simpl. rewrite Er. unfold deferred_close, set_state. simpl. destruct Hs as [E|[E| E]]; rewrite E; simpl; eexists; (split; [reflexivity|]); by simpl.
Qed.

(** * C64 *)
(** A datagram is passed on iff it is exactly one TLV element *)
Theorem C64_datagram d e : receive_datagram d = Some e <-> e = d /\ is_tlv d.
Proof.
  unfold receive_datagram. split.
  - destruct (from_buffer d) as [[e' r]|] eqn:E; [|done]. apply from_buffer_spec in E as [-> He]. destruct (N.eqb_spec (len e') (len (e' ++ r))) as [El|]; [|done]. intros [= <-]. rewrite len_app in El. unfold len in El.
    assert (r = []) as -> by (destruct r; [done|simpl in El; lia]). by rewrite app_nil_r.
  - intros [-> He]. assert (from_buffer d = Some (d, [])) as -> by (apply from_buffer_spec; by rewrite app_nil_r). by rewrite N.eqb_refl.
Qed.

(** * Examples *)
Fixpoint x_run (l : list xev) (x : xp) : option xp := match l with [] => Some x | e :: l' => match x_step x e with Some x' => x_run l' x' | None => None end end.
Definition io_okb (x : xp) (e : xev) : bool :=
  match e with
  | IoWritten i k => x_open x && negb (x_shut x) && match x_w x !! i with Some (p, n) => (0 <? k)%nat && (k <=? length p)%nat | None => false end
  | IoWriteError i e => match x_w x !! i with Some _ => bool_decide (e = EOther) | None => false end
  | IoReceived d => x_open x && negb (x_shut x) && (0 <? x_r x)%nat && negb (bool_decide (d = [])) && (len (x_buf x) + len d <=? MAX_PACKET)%N
  | IoReceiveError e => (0 <? x_r x)%nat && bool_decide (e = EEof)
  | IoConnected r => (0 <? x_c x)%nat && bool_decide (r = None)
  | XTimer => x_timer x
  | XRun => negb (bool_decide (x_ready x = []))
  | XSend p => negb (bool_decide (p = []))
  | _ => true
  end.
Fixpoint x_okb (l : list xev) (x : xp) : bool := match l with [] => true | e :: l' => io_okb x e && match x_step x e with Some x' => x_okb l' x' | None => false end end.
Lemma io_okb_ok x e : io_okb x e = true -> io_ok x e.
Proof.
  destruct e; simpl; rewrite ?andb_true_iff, ?negb_true_iff, ?bool_decide_eq_false, ?bool_decide_eq_true, ?Nat.ltb_lt, ?N.leb_le; try done.
  - intros [[? ?] ?]. split; [done|]. split; [done|]. destruct (x_w x !! i) as [[p n]|]; [|done]. exists p, n. split; [done|]. rewrite andb_true_iff, Nat.ltb_lt, Nat.leb_le in *. lia.
  - destruct (x_w x !! i) as [w|]; [|done]. intros ->%bool_decide_eq_true. split; [eauto|]. done.
  - tauto.
  - intros [? ->]. done.
  - intros [? ->]. done.
Qed.
Lemma x_run_hist l : forall x0 l0 x x', x_okb l x = true -> x_hist x0 l0 x -> x_run l x = Some x' -> x_hist x0 (l0 ++ l) x'.
Proof.
  induction l as [|e l IH]; simpl; intros x0 l0 x x' Hb H0 H; [injection H as <-; by rewrite app_nil_r|]. apply andb_true_iff in Hb as [Hok Hb]. destruct (x_step x e) as [x1|] eqn:E; [|done].
  change (l0 ++ e :: l) with (l0 ++ [e] ++ l). rewrite app_assoc. eapply IH; [done| |done]. econstructor; [exact H0|by apply io_okb_ok|done].
Qed.
Lemma x_run_reached tcp perm l x : x_okb l (x_new tcp perm) = true -> x_run l (x_new tcp perm) = Some x -> x_hist (x_new tcp perm) l x.
Proof. intros Hb H. exact (x_run_hist l _ [] _ _ Hb (xh_nil _) H). Qed.

(** two packets, of 4 and 257 octets, received in three pieces *)
Definition ex_p1 : list N := [6; 2; 7; 7]%N.
Definition ex_p2 : list N := [253; 1; 44; 253; 1; 0]%N ++ replicate 256 9%N.
Example ex_tlv : is_tlv ex_p1 /\ is_tlv ex_p2.
Proof.
  split; [exists [6%N], 6%N, [2%N], [7; 7]%N|exists [253; 1; 44]%N, 300%N, [253; 1; 0]%N, (replicate 256 9%N)]; (split; [done|]); split; [by constructor| |change 300%N with (number [1; 44]%N); by constructor|].
  - split; [done|]. by constructor.
  - split; [done|]. change (len (replicate 256 9%N)) with (number [1; 0]%N). by constructor.
Qed.
Example ex_receive : exists x, plain x /\ x_in x = concat [ex_p1; ex_p2] /\ x_got x = [ex_p1; ex_p2] /\ x_state x = TUp.
Proof.
  set (l := [IoReceived [6; 2; 7]%N; XRun; IoReceived (7%N :: take 10 ex_p2); XRun; IoReceived (drop 10 ex_p2); XRun]). destruct (x_run l (x_new false false)) as [x|] eqn:E; [|by vm_compute in E].
  exists x. split; [exists false, false, l; split; [|by left]; apply x_run_reached; [by vm_compute|done]|].
  assert (match x_run l (x_new false false) with Some x => bool_decide (x_in x = concat [ex_p1; ex_p2]) && bool_decide (x_got x = [ex_p1; ex_p2]) && bool_decide (x_state x = TUp) | None => false end = true) as H by (vm_compute; done).
  rewrite E in H. rewrite !andb_true_iff, !bool_decide_eq_true in H. tauto.
Qed.
(** two packets sent; the first is written in two parts *)
Example ex_send : exists x, plain x /\ x_acc x = [ex_p1; ex_p2] /\ x_net x = ex_p1 ++ take 5 ex_p2 /\ x_sendq x = [ex_p2] /\ x_state x = TUp /\ x_qbytes x = 262%N.
Proof.
  set (l := [XSend ex_p1; IoWritten 0 3; XSend ex_p2; IoWritten 0 1; XRun; IoWritten 0 5]). destruct (x_run l (x_new true false)) as [x|] eqn:E; [|by vm_compute in E].
  exists x. split; [exists true, false, l; split; [apply x_run_reached; [by vm_compute|done]|right; split; [done|]; unfold l; rewrite !elem_of_cons, elem_of_nil; intuition congruence]|].
  assert (match x_run l (x_new true false) with Some x => bool_decide (x_acc x = [ex_p1; ex_p2]) && bool_decide (x_net x = ex_p1 ++ take 5 ex_p2) && bool_decide (x_sendq x = [ex_p2]) && bool_decide (x_state x = TUp) && bool_decide (x_qbytes x = 262%N) | None => false end = true) as H by (vm_compute; done).
  rewrite E in H. rewrite !andb_true_iff, !bool_decide_eq_true in H. tauto.
Qed.

(** ** What is false *)
(** A write fails when received octets wait to be handled: they are handled when the transport has failed, and startReceive's assertion fails *)
Theorem C48_defined_refuted : exists x d l, plain x /\ x_ready x = HRecv None d :: l /\ io_ok x XRun /\ x_state x = TFailed /\ x_step x XRun = None.
Proof.
  set (l := [XSend ex_p1; IoWriteError 0 EOther; IoReceived ex_p1; XRun]). destruct (x_run l (x_new false false)) as [x|] eqn:E; [|by vm_compute in E].
  assert (match x_run l (x_new false false) with Some x => bool_decide (x_ready x = [HRecv None ex_p1; HClose]) && bool_decide (x_state x = TFailed) && match x_step x XRun with None => true | _ => false end | None => false end = true) as H by (vm_compute; done).
  rewrite E in H. rewrite !andb_true_iff, !bool_decide_eq_true in H. destruct H as [[H1 H2] H3]. exists x, ex_p1, [HClose]. split; [exists false, false, l; split; [|by left]; apply x_run_reached; [by vm_compute|done]|]. split; [done|]. split; [simpl; by rewrite H1|]. split; [done|]. by destruct (x_step x XRun).
Qed.
(** On a permanent TCP face a write that was started after the connection failed can succeed, and is handled after the queue was emptied: handleSend's assertion fails *)
Theorem C49_defined_refuted : exists x n l, x_reached x /\ x_ready x = HSend None n :: l /\ io_ok x XRun /\ x_sendq x = [] /\ x_step x XRun = None.
Proof.
  set (l := [XSend ex_p1; XSend ex_p1; XSend ex_p1; IoWritten 0 4; IoReceiveError EEof; XRun; IoWritten 0 4; XRun; XRun; IoWritten 0 4; XRun]). destruct (x_run l (x_new true true)) as [x|] eqn:E; [|by vm_compute in E].
  assert (match x_run l (x_new true true) with Some x => bool_decide (x_ready x = [HSend None 4]) && bool_decide (x_sendq x = []) && match x_step x XRun with None => true | _ => false end | None => false end = true) as H by (vm_compute; done).
  rewrite E in H. rewrite !andb_true_iff, !bool_decide_eq_true in H. destruct H as [[H1 H2] H3]. exists x, 4%N, []. split; [exists true, true, l; apply x_run_reached; [by vm_compute|done]|]. split; [done|]. split; [simpl; by rewrite H1|]. split; [done|]. by destruct (x_step x XRun).
Qed.
(** close() when a buffer full of garbage waits to be handled: an invalid transition is attempted, and the exception ends the daemon *)
Theorem C50_exception_refuted : exists x d l, plain x /\ x_ready x = HRecv None d :: l /\ io_ok x XRun /\ x_state x = TClosing /\ set_state TFailed x = None /\ x_step x XRun = None.
Proof.
  set (g := replicate (N.to_nat MAX_PACKET) 0%N). set (l := [IoReceived g; XClose]).
  destruct (x_run l (x_new false false)) as [x|] eqn:E; [|by vm_compute in E].
  assert (match x_run l (x_new false false) with Some x => bool_decide (x_ready x = [HRecv None g; HClose]) && bool_decide (x_state x = TClosing) && match x_step x XRun with None => true | _ => false end | None => false end = true) as H by (vm_compute; done).
  rewrite E in H. rewrite !andb_true_iff, !bool_decide_eq_true in H. destruct H as [[H1 H2] H3]. exists x, g, [HClose]. split; [exists false, false, l; split; [|by left]; apply x_run_reached; [by vm_compute|done]|]. split; [done|]. split; [simpl; by rewrite H1|]. split; [done|].
  split; [unfold set_state; by rewrite H2|]. by destruct (x_step x XRun).
Qed.
(** the timer fires when the new connection has just been made: the face comes up with a closed socket, and the next attempt fails an assertion.
    (The code ends before that: handleReconnect asks the closed socket for its local endpoint, which throws) *)
Theorem C50_late_refuted : exists x l, x_reached x /\ x_ready x = HReconnect :: l /\ io_ok x XRun /\ x_state x = TUp /\ x_open x = false /\ x_step x XRun = None.
Proof.
  set (l := [IoReceiveError EEof; XRun; XRun; IoConnected None; XTimer; XRun]).
  destruct (x_run l (x_new true true)) as [x|] eqn:E; [|by vm_compute in E].
  assert (match x_run l (x_new true true) with Some x => bool_decide (x_ready x = [HReconnect]) && bool_decide (x_state x = TUp) && negb (x_open x) && match x_step x XRun with None => true | _ => false end | None => false end = true) as H by (vm_compute; done).
  rewrite E in H. rewrite !andb_true_iff, !bool_decide_eq_true, negb_true_iff in H. destruct H as [[[H1 H2] H3] H4]. exists x, []. split; [exists true, true, l; apply x_run_reached; [by vm_compute|done]|]. split; [done|]. split; [simpl; by rewrite H1|]. split; [done|]. split; [done|]. by destruct (x_step x XRun).
Qed.
(** a face that is down, meets the hypotheses of the theorems on reconnection *)
Example C50_ex_reconnect :
  match x_run [IoReceiveError EOther; XRun] (x_new true true) with
  | Some x => bool_decide (x_ready x = [HReconnect]) && bool_decide (x_state x = TDown) && x_perm x &&
      match x_run [XRun; IoConnected None; XRun; XSend ex_p1] x with Some y => bool_decide (x_state y = TUp) && (x_r y =? 1)%nat && bool_decide (x_acc y = [ex_p1]) | None => false end &&
      match x_step x (XPersistency false) with Some y => bool_decide (x_state y = TFailed) | None => false end
  | None => false
  end = true.
Proof. vm_compute. reflexivity. Qed.

Print Assumptions C50_late_refuted.
Print Assumptions C48_framed.
Print Assumptions C48_packets.
Print Assumptions C48_all.
Print Assumptions C48_receive.
Print Assumptions C48_never_fails.
Print Assumptions C48_room.
Print Assumptions C48_defined_refuted.
Print Assumptions C49_accepted.
Print Assumptions C49_stream.
Print Assumptions C49_queue.
Print Assumptions C49_one.
Print Assumptions C49_progress.
Print Assumptions C49_defined.
Print Assumptions C49_defined_refuted.
Print Assumptions C50_path.
Print Assumptions C50_final.
Print Assumptions C50_close.
Print Assumptions C50_idempotent.
Print Assumptions C50_silent.
Print Assumptions C50_pending.
Print Assumptions C50_closes.
Print Assumptions C50_exception_refuted.
Print Assumptions C64_datagram.
Print Assumptions C50_error.
