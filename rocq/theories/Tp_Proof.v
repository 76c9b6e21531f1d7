(** Framing and the transport's state machine. *)
From Verif Require Import Lib Lp_Model Tp_Model Tp_Spec.

(** * Framing *)
Lemma len_app l1 l2 : len (l1 ++ l2) = (len l1 + len l2)%N.
Proof. unfold len. rewrite app_length. lia. Qed.
Lemma big_endian_number l acc : big_endian acc l = (acc * 256 ^ N.of_nat (length l) + number l)%N.
Proof.
  revert acc. induction l as [|b l IH]; intros acc; [simpl; lia|]. simpl big_endian. rewrite IH. simpl number. change (length (b :: l)) with (S (length l)).
  rewrite Nat2N.inj_succ, N.pow_succ_r'. lia.
Qed.
Lemma read_fixed_spec k l n r : read_fixed k l = Some (n, r) <-> exists x, l = x ++ r /\ length x = k /\ n = number x.
Proof.
  unfold read_fixed. destruct (Nat.ltb_spec (length l) k) as [Hl|Hl].
  - split; [done|]. intros (x & -> & Hx & _). rewrite app_length in Hl. lia.
  - rewrite big_endian_number. simpl. split.
    + intros [= <- <-]. exists (take k l). rewrite take_drop. split; [done|]. split; [rewrite take_length; lia|done].
    + intros (x & -> & <- & ->). by rewrite take_app, drop_app.
Qed.
Lemma read_var_spec l n r : read_var l = Some (n, r) <-> exists x, l = x ++ r /\ var_number x n.
Proof.
  split.
  - destruct l as [|b l]; [done|]. simpl. destruct (N.ltb_spec b 253).
    { intros [= <- <-]. exists [b]. split; [done|]. by constructor. }
    destruct (N.eqb_spec b 253) as [->|]; [|destruct (N.eqb_spec b 254) as [->|]; [|destruct (N.eqb_spec b 255) as [->|]; [|done]]]; intros (x & -> & Hx & ->)%read_fixed_spec; (eexists (_ :: x); split; [done|by constructor]).
  - intros (x & -> & Hx). destruct Hx as [n Hn|x Hx|x Hx|x Hx]; simpl.
    + destruct (N.ltb_spec n 253); [done|lia].
    + apply read_fixed_spec. eauto.
    + apply read_fixed_spec. eauto.
    + apply read_fixed_spec. eauto.
Qed.
Lemma read_type_spec l n r : read_type l = Some (n, r) <-> (exists x, l = x ++ r /\ var_number x n) /\ (0 < n < 2 ^ 32)%N.
Proof.
  unfold read_type. rewrite <- read_var_spec. change (2 ^ 32)%N with 4294967296%N. destruct (read_var l) as [[t l']|]; [|split; [done|]; by intros [? _]].
  destruct (N.eqb_spec t 0) as [->|]; [simpl; split; [done|]; intros [[= <- <-] ?]; lia|]. simpl. destruct (N.ltb_spec 4294967295 t); split; try done; intros H'.
  - destruct H' as [[= <- <-] ?]. lia.
  - injection H' as <- <-. split; [done|lia].
  - by destruct H' as [[= <- <-] _].
Qed.
Lemma from_buffer_spec l e r : from_buffer l = Some (e, r) <-> l = e ++ r /\ is_tlv e.
Proof.
  unfold from_buffer. split.
  - destruct (read_type l) as [[t l1]|] eqn:E1; [|done]. apply read_type_spec in E1 as ((x & -> & Hx) & Ht). destruct (read_var l1) as [[n l2]|] eqn:E2; [|done].
    apply read_var_spec in E2 as (y & -> & Hy). destruct (N.ltb_spec (len l2) n) as [|Hn]; [done|]. intros [= <- <-]. rewrite take_drop. split; [done|].
    unfold len in Hn. assert (Hk : (length (x ++ y ++ l2) - length l2 + N.to_nat n = length (x ++ y) + N.to_nat n)%nat) by (rewrite !app_length; lia).
    rewrite Hk, (app_assoc x y l2), take_add_app by done. exists x, t, y, (take (N.to_nat n) l2). split; [by rewrite <- app_assoc|]. split; [done|]. split; [done|].
    assert (len (take (N.to_nat n) l2) = n) as -> by (unfold len; rewrite take_length; lia). done.
  - intros [-> (x & t & y & v & -> & Hx & Ht & Hy)].
    assert (read_type ((x ++ y ++ v) ++ r) = Some (t, y ++ v ++ r)) as -> by (apply read_type_spec; split; [exists x; by rewrite <- !app_assoc|done]).
    assert (read_var (y ++ v ++ r) = Some (len v, v ++ r)) as -> by (apply read_var_spec; by exists y).
    destruct (N.ltb_spec (len (v ++ r)) (len v)) as [H|_]; [rewrite len_app in H; lia|].
    assert ((length ((x ++ y ++ v) ++ r) - length (v ++ r) + N.to_nat (len v) = length (x ++ y ++ v))%nat) as -> by (unfold len; rewrite !app_length; lia).
    by rewrite take_app, drop_app.
Qed.
Lemma tlv_unique e1 r1 e2 r2 : e1 ++ r1 = e2 ++ r2 -> is_tlv e1 -> is_tlv e2 -> e1 = e2 /\ r1 = r2.
Proof.
  intros E H1 H2. assert (A : from_buffer (e1 ++ r1) = Some (e1, r1)) by by apply from_buffer_spec. assert (B : from_buffer (e1 ++ r1) = Some (e2, r2)) by by apply from_buffer_spec.
  rewrite A in B. by injection B.
Qed.
Lemma tlv_long e : is_tlv e -> (2 <= length e)%nat.
Proof. intros (x & t & y & v & -> & Hx & _ & Hy). rewrite !app_length. destruct Hx; destruct Hy; simpl; lia. Qed.
Lemma parse_spec fuel : forall l es r, (length l <= fuel)%nat -> parse fuel l = (es, r) -> framed l es r.
Proof.
  induction fuel as [|fuel IH]; intros l es r Hl H; simpl in H.
  - injection H as <- <-. destruct l; [|simpl in Hl; lia]. split; [done|]. split; [by constructor|]. intros e r E He. apply tlv_long in He. symmetry in E. apply app_eq_nil in E as [-> _]. simpl in He. lia.
  - destruct (from_buffer l) as [[e l']|] eqn:E.
    + apply from_buffer_spec in E as [-> He]. destruct (parse fuel l') as [es' r'] eqn:Ep. injection H as <- <-. pose proof (tlv_long _ He). rewrite app_length in Hl.
      destruct (IH l' es' r' ltac:(lia) Ep) as (-> & Hes & Hr). split; [simpl; by rewrite <- app_assoc|]. split; [by constructor|done].
    + injection H as <- <-. split; [done|]. split; [by constructor|]. intros e r' E' He. assert (from_buffer l = Some (e, r')) by by apply from_buffer_spec. congruence.
Qed.
Lemma framed_unique s p1 r1 p2 r2 : framed s p1 r1 -> framed s p2 r2 -> p1 = p2 /\ r1 = r2.
Proof.
  intros (-> & F1 & N1) (E & F2 & N2). revert p2 F2 E. induction F1 as [|e p1 He F1 IH]; intros p2 F2 E; destruct F2 as [|e2 p2 He2 F2]; simpl in E.
  - done.
  - exfalso. rewrite <- app_assoc in E. by eapply N1.
  - exfalso. rewrite <- app_assoc in E. symmetry in E. by eapply N2.
  - rewrite <- !app_assoc in E. destruct (tlv_unique _ _ _ _ E He He2) as [<- E']. destruct (IH p2 F2 E') as [<- <-]. done.
Qed.
Lemma framed_app s ps rest d qs rest' : framed s ps rest -> framed (rest ++ d) qs rest' -> framed (s ++ d) (ps ++ qs) rest'.
Proof.
  intros (-> & F1 & _) (E & F2 & N2). split; [|split; [by apply Forall_app|done]]. rewrite concat_app, <- !app_assoc. f_equal. exact E.
Qed.
Lemma framed_nil : framed [] [] [].
Proof. split; [done|]. split; [by constructor|]. intros e r E He. apply tlv_long in He. symmetry in E. apply app_eq_nil in E as [-> _]. simpl in He. lia. Qed.

(** * The log of received octets *)
Definition rcv (x : xp) := (x_in x, x_got x, x_buf x).
Definition fr (x : xp) : Prop := framed (x_in x) (x_got x) (x_buf x).
Lemma set_state_eq v x x' : set_state v x = Some x' -> x' = x /\ x_state x = v \/ x' = set_xstate v x /\ valid_change (x_state x) v = true.
Proof. unfold set_state. case_bool_decide; [by intros [= <-]; left|]. destruct (valid_change _ _) eqn:E; [|done]. intros [= <-]. by right. Qed.
Lemma set_state_rcv v x x' : set_state v x = Some x' -> rcv x' = rcv x.
Proof. intros [[-> _]|[-> _]]%set_state_eq; done. Qed.
Lemma do_close_rcv x : rcv (do_close x) = rcv x.
Proof. unfold do_close. destruct (x_tcp x); simpl; destruct (x_open x); done. Qed.
Lemma error_rcv e x x' : process_error e x = Some x' -> rcv x' = rcv x.
Proof.
  assert (H : handle_error e x = Some x' -> rcv x' = rcv x).
  { unfold handle_error. destruct (_ && _).
    - destruct (set_state _ x) as [y|] eqn:E; [|done]. intros [= <-]. apply set_state_rcv in E. rewrite <- E. done.
    - destruct (set_state _ x) as [y|] eqn:E; [|done]. intros [= <-]. apply set_state_rcv in E. rewrite <- E. apply do_close_rcv. }
  unfold process_error. destruct (x_state x), e; auto; by intros [= <-].
Qed.
Lemma start_rcv x x' : start_receive x = Some x' -> rcv x' = rcv x.
Proof. unfold start_receive. destruct (x_state x); [|done..]. by intros [= <-]. Qed.
Lemma handle_send_rcv r n x x' : handle_send r n x = Some x' -> rcv x' = rcv x.
Proof.
  destruct r as [e|]; simpl; [apply error_rcv|]. destruct (x_sendq x) as [|p q]; [done|]. destruct (_ =? _)%N; [|done]. destruct q; [by intros [= <-]|]. unfold send_from_queue. simpl. by intros [= <-].
Qed.
(** handleReceive *)
Lemma handle_receive_rcv d x x' es rest : framed (x_buf x ++ d) es rest -> handle_receive None d x = Some x' -> x_in x' = x_in x ++ d /\ x_got x' = x_got x ++ es /\ x_buf x' = rest.
Proof.
  intros Fe H. cbn -[parse] in H. destruct (parse (length (x_buf x ++ d)) (x_buf x ++ d)) as [es' rest'] eqn:E. apply parse_spec in E; [|done]. destruct (framed_unique _ _ _ _ _ E Fe) as [-> ->]. clear E.
  destruct rest as [|b rest].
  - apply start_rcv in H. unfold rcv in H. simpl in H. by injection H as -> -> ->.
  - destruct (Nat.eqb_spec (length (b :: rest)) (length (x_buf x ++ d))) as [El|El]; cbn [negb] in H; cbv iota in H.
    + assert (x_buf x ++ d = b :: rest) as Eb.
      { destruct Fe as (Ec & _). rewrite Ec in El. rewrite app_length in El. assert (concat es = []) as Hc by (destruct (concat es); [done|simpl in El; lia]). by rewrite Hc in Ec. }
      destruct (_ =? _)%N.
      * destruct (set_state TFailed _) as [y|] eqn:Es; [|done]. injection H as <-. apply set_state_rcv in Es. assert (R : (x_in (do_close y), x_got (do_close y), x_buf (do_close y)) = (x_in x ++ d, x_got x ++ es, x_buf x ++ d)) by exact (eq_trans (do_close_rcv y) Es). generalize dependent (do_close y). intros z R. injection R as -> -> ->. by rewrite Eb.
      * apply start_rcv in H. unfold rcv in H. simpl in H. injection H as -> -> ->. by rewrite Eb.
    + apply start_rcv in H. unfold rcv in H. simpl in H. by injection H as -> -> ->.
Qed.
Lemma framed_ex l : exists es rest, framed l es rest.
Proof. destruct (parse (length l) l) as [es r] eqn:E. apply parse_spec in E; [|done]. eauto. Qed.
Lemma step_fr x e x' : fr x -> x_step x e = Some x' -> fr x'.
Proof.
  assert (K : forall y, rcv y = rcv x -> fr x -> fr y). { intros y E F. unfold fr. unfold rcv in E. injection E as -> -> ->. done. }
  intros F H. destruct e as [p| |b| | |i k|i e|d|e|r]; simpl in H.
  - apply K; [|done]. unfold transport_send, do_send in H. destruct (x_state x); try (by injection H as <-). destruct (x_sendq x); simpl in H; [unfold send_from_queue in H; simpl in H|]; by injection H as <-.
  - apply K; [|done]. unfold transport_close in H. destruct (x_state x); try (by injection H as <-); (destruct (set_state _ x) as [y|] eqn:E; [|done]); injection H as <-; rewrite do_close_rcv; by eapply set_state_rcv.
  - apply K; [|done]. unfold change_persistency in H. destruct (_ && _); [|by injection H as <-]. simpl in H. destruct (x_state x); try (by injection H as <-). destruct (set_state _ _) as [y|] eqn:E; [|done]. injection H as <-. rewrite do_close_rcv. by apply set_state_rcv in E.
  - injection H as <-. by apply K.
  - destruct (x_ready x) as [|h l]; [by injection H as <-|]. destruct h as [r n|r d| | |r].
    + apply handle_send_rcv in H. by apply K.
    + destruct r as [e|]; [apply error_rcv in H; by apply K|]. destruct (framed_ex (x_buf x ++ d)) as (es & rest & Fe). destruct (handle_receive_rcv d (set_ready l x) x' es rest Fe H) as (E1 & E2 & E3). unfold fr. rewrite E1, E2, E3. simpl.
      eapply framed_app; [exact F|exact Fe].
    + apply K; [|done]. unfold deferred_close in H. apply set_state_rcv in H. done.
    + unfold reconnect in H. simpl in H. destruct (x_state x); try done; try (injection H as <-; by apply K). destruct (x_perm x); [|done]. injection H as <-. exact framed_nil.
    + apply K; [|done]. unfold handle_reconnect in H. simpl in H. destruct (x_state x), r; try (by injection H as <-); (destruct (set_state _ _) as [y|] eqn:E; [|done]); apply start_rcv in H; rewrite H; by apply set_state_rcv in E.
  - destruct (x_w x !! i) as [[p n]|]; [|by injection H as <-]. destruct (_ <=? _)%nat; injection H as <-; by apply K.
  - injection H as <-. by apply K.
  - injection H as <-. by apply K.
  - injection H as <-. by apply K.
  - injection H as <-. by apply K.
Qed.
Lemma hist_fr x0 l x : x_hist x0 l x -> fr x0 -> fr x.
Proof. induction 1; [done|]. intros F. eapply step_fr; [|done]. auto. Qed.

(** * States *)
Lemma valid_documented a b : valid_change a b = true <-> documented a b.
Proof. split; [|by destruct 1]. destruct a, b; try done; intros _; constructor. Qed.
Definition trail (a : tstate) (l : list tstate) (x : xp) : Prop := exists l', x_changes x = l' ++ l /\ path a l' (x_state x).
Definition hop (x x' : xp) : Prop := exists l', x_changes x' = l' ++ x_changes x /\ path (x_state x) l' (x_state x').
Lemma hop_same x x' : x_changes x' = x_changes x -> x_state x' = x_state x -> hop x x'.
Proof. intros E1 E2. exists []. rewrite E1, E2. split; [done|constructor]. Qed.
Lemma set_state_hop v x x' : set_state v x = Some x' -> hop x x' /\ x_state x' = v.
Proof.
  intros [[-> E]|[-> E]]%set_state_eq; [split; [by apply hop_same|done]|]. split; [|done]. exists [v]. split; [done|]. simpl. econstructor; [constructor|]. by apply valid_documented.
Qed.
Definition st (x : xp) := (x_changes x, x_state x).
Lemma hop_st x x' y y' : st x = st y -> st x' = st y' -> hop y y' -> hop x x'.
Proof. unfold st, hop. intros [= -> ->] [= -> ->]. done. Qed.
Lemma do_close_st x : st (do_close x) = st x.
Proof. unfold do_close. destruct (x_tcp x); simpl; destruct (x_open x); done. Qed.
Lemma error_hop e x x' : process_error e x = Some x' -> hop x x'.
Proof.
  assert (H : handle_error e x = Some x' -> hop x x').
  { unfold handle_error. destruct (_ && _).
    - destruct (set_state _ x) as [y|] eqn:E; [|done]. intros [= <-]. apply set_state_hop in E as [E _]. by eapply hop_st; [| |exact E].
    - destruct (set_state _ x) as [y|] eqn:E; [|done]. intros [= <-]. apply set_state_hop in E as [E _]. eapply hop_st; [| |exact E]; [done|apply do_close_st]. }
  unfold process_error. destruct (x_state x), e; auto; intros [= <-]; by apply hop_same.
Qed.
Lemma start_hop x x' : start_receive x = Some x' -> st x' = st x.
Proof. unfold start_receive. destruct (x_state x); [|done..]. by intros [= <-]. Qed.
Lemma step_hop x e x' : x_step x e = Some x' -> hop x x'.
Proof.
  assert (K : forall y, st y = st x -> hop x y) by (intros y E; injection E; intros; by apply hop_same).
  intros H. destruct e as [p| |b| | |i k|i e|d|e|r]; simpl in H.
  - apply K. unfold transport_send, do_send in H. destruct (x_state x); try (by injection H as <-). destruct (x_sendq x); simpl in H; [unfold send_from_queue in H; simpl in H|]; by injection H as <-.
  - unfold transport_close in H. destruct (x_state x) eqn:Es; try (injection H as <-; by apply K); (destruct (set_state _ x) as [y|] eqn:E; [|done]); injection H as <-; apply set_state_hop in E as [E _]; (eapply hop_st; [done|apply do_close_st|exact E]).
  - unfold change_persistency in H. destruct (_ && _); [|injection H as <-; by apply K]. simpl in H. destruct (x_state x) eqn:Es; try (injection H as <-; by apply K). destruct (set_state _ _) as [y|] eqn:E; [|done]. injection H as <-. apply set_state_hop in E as [E _]. by eapply hop_st; [|apply do_close_st|exact E].
  - injection H as <-. by apply K.
  - destruct (x_ready x) as [|h l]; [injection H as <-; by apply K|]. destruct h as [r n|r d| | |r].
    + destruct r as [e|]; [apply error_hop in H; by eapply hop_st; [| |exact H]|]. apply K. simpl in H. destruct (x_sendq x) as [|p q]; [done|]. destruct (_ =? _)%N; [|done]. destruct q; [by injection H as <-|]. unfold send_from_queue in H. simpl in H. by injection H as <-.
    + destruct r as [e|]; [apply error_hop in H; by eapply hop_st; [| |exact H]|]. cbn -[parse] in H. destruct (parse _ _) as [es [|b rest]]; [apply K; by apply start_hop in H|]. destruct (negb _); [apply K; by apply start_hop in H|]. destruct (_ =? _)%N; [|apply K; by apply start_hop in H].
      destruct (set_state TFailed _) as [y|] eqn:Es; [|done]. injection H as <-. apply set_state_hop in Es as [Es _]. by eapply hop_st; [|apply do_close_st|exact Es].
    + unfold deferred_close in H. apply set_state_hop in H as [H _]. by eapply hop_st; [| |exact H].
    + unfold reconnect in H. simpl in H. destruct (x_state x) eqn:Es; try done; try (injection H as <-; by apply K). destruct (x_perm x); [|done]. injection H as <-. by apply K.
    + unfold handle_reconnect in H. simpl in H. destruct (x_state x) eqn:Es, r; try (injection H as <-; by apply K); (destruct (set_state _ _) as [y|] eqn:E; [|done]); apply start_hop in H; apply set_state_hop in E as [E _]; by eapply hop_st; [|exact H|exact E].
  - destruct (x_w x !! i) as [[p n]|]; [|injection H as <-; by apply K]. destruct (_ <=? _)%nat; injection H as <-; by apply K.
  - injection H as <-. by apply K.
  - injection H as <-. by apply K.
  - injection H as <-. by apply K.
  - injection H as <-. by apply K.
Qed.

(** * Closing *)
Record cl (x : xp) : Prop := {
  c_shut : shutting (x_state x) -> x_shut x = true \/ x_open x = false;
  c_hclose : HClose ∈ x_ready x -> shutting (x_state x);
  c_pending : x_state x = TClosing \/ x_state x = TFailed -> HClose ∈ x_ready x;
  c_timer : x_timer x = true -> x_state x = TDown /\ x_tcp x = true;
  c_reconn : HReconnect ∈ x_ready x -> x_tcp x = true;
  c_down : x_state x = TDown -> x_tcp x = true;
}.
Lemma do_close_eq x : (x_tcp x = false -> x_timer x = false) ->
  exists l, x_ready (do_close x) = l ++ [HClose] /\ (forall h, h ∈ l -> h ∈ x_ready x \/ h <> HReconnect) /\ x_timer (do_close x) = false /\ x_tcp (do_close x) = x_tcp x /\ x_state (do_close x) = x_state x /\ (x_shut (do_close x) = true \/ x_open (do_close x) = false).
Proof.
  intros Ht. unfold do_close, queue. destruct (x_tcp x) eqn:Etcp; destruct (x_open x) eqn:Eo; simpl; rewrite ?Eo; simpl; eexists; (split; [reflexivity|]); (split; [|rewrite ?Ht; auto]); try (by left).
  all: intros h; rewrite !elem_of_app; intros [?|[?|[?|?]]]; [by left|right..].
  all: first [by intros ->; apply elem_of_list_fmap in H as (? & ? & _)|by intros ->; apply elem_of_replicate in H as [? _]].
Qed.
Lemma cl_close v x y : cl x -> set_state v x = Some y -> v = TClosing \/ v = TFailed -> cl (do_close y).
Proof.
  intros C E Hv. destruct (set_state_hop _ _ _ E) as [_ Ev]. assert (Ht : x_tcp y = x_tcp x /\ x_timer y = x_timer x /\ x_ready y = x_ready x) by by apply set_state_eq in E as [[-> _]|[-> _]].
  destruct Ht as (E1 & E2 & E3). destruct (do_close_eq y) as (l & R & L & T & TC & S & O).
  { rewrite E1, E2. intros Hf. destruct (x_timer x) eqn:Et; [|done]. destruct (c_timer x C Et) as [_ ?]. congruence. }
  constructor; rewrite ?S, ?R, ?T, ?TC, ?Ev.
  - done.
  - intros _. unfold shutting. tauto.
  - intros _. apply elem_of_app. right. left.
  - done.
  - rewrite elem_of_app. intros [Hl|Hl%elem_of_list_singleton]; [|done]. destruct (L _ Hl) as [Hr|]; [|done]. rewrite E1. apply (c_reconn x C). by rewrite <- E3.
  - destruct Hv; congruence.
Qed.
Lemma cl_frame x y : cl x -> x_state y = x_state x -> x_tcp y = x_tcp x -> (x_timer y = true -> x_timer x = true) ->
  x_shut y = x_shut x -> x_open y = x_open x \/ x_open y = false ->
  (HClose ∈ x_ready y <-> HClose ∈ x_ready x) -> (HReconnect ∈ x_ready y -> HReconnect ∈ x_ready x \/ x_tcp x = true) -> cl y.
Proof.
  intros [C1 C2 C3 C4 C5 C6] E1 E2 E3 E4 E5 E6 E7. constructor; rewrite ?E1, ?E2, ?E4, ?E6; auto.
  - intros H. destruct (C1 H); [by left|]. right. by destruct E5 as [->|].
  - intros H. by destruct (E7 H); [apply C5|].
Qed.
Lemma junk_in (x : xp) h : h = HClose \/ h = HReconnect ->
  h ∉ map (fun w : list N * N => HSend (Some EAborted) 0) (x_w x) ++ replicate (x_r x) (HRecv (Some EAborted) []) ++ replicate (x_c x) (HConn (Some EAborted)).
Proof.
  intros Hh. rewrite !elem_of_app. intros [H|[H|H]]; [apply elem_of_list_fmap in H as (? & ? & _)|apply elem_of_replicate in H as [? _]..]; destruct Hh; congruence.
Qed.
Lemma cl_cancel x : cl x -> cl (cancel x).
Proof.
  intros C. apply (cl_frame x); auto; simpl; rewrite elem_of_app; pose proof (junk_in x HClose (or_introl eq_refl)); pose proof (junk_in x HReconnect (or_intror eq_refl)); tauto.
Qed.
Lemma cl_pop x h l : cl x -> x_ready x = h :: l -> h <> HClose -> cl (set_ready l x).
Proof.
  intros C E Hh. apply (cl_frame x); auto; simpl; rewrite E, elem_of_cons; [|by left; right]. split; [by right|]. intros [?|?]; [by subst|done].
Qed.
Lemma cl_queue x h : cl x -> h <> HClose -> h <> HReconnect -> cl (queue h x).
Proof. intros C H1 H2. apply (cl_frame x); auto; simpl; rewrite elem_of_app, elem_of_list_singleton; intuition congruence. Qed.
Lemma cl_same x y : cl x -> x_state y = x_state x -> x_tcp y = x_tcp x -> x_timer y = x_timer x -> x_shut y = x_shut x -> x_open y = x_open x -> x_ready y = x_ready x -> cl y.
Proof. intros C E1 E2 E3 E4 E5 E6. apply (cl_frame x); rewrite ?E3, ?E6; auto. Qed.
Lemma error_cl e x x' : cl x -> process_error e x = Some x' -> cl x'.
Proof.
  intros C.
  assert (H : x_state x = TUp \/ x_state x = TDown -> handle_error e x = Some x' -> cl x').
  { intros Hs. unfold handle_error. destruct (x_tcp x && x_perm x) eqn:Etp.
    - apply andb_true_iff in Etp as [Etcp _]. destruct (set_state _ x) as [y|] eqn:E; [|done]. intros [= <-].
      assert (Ey : x_state y = TDown) by exact (proj2 (set_state_hop _ _ _ E)). assert (x_tcp y = x_tcp x /\ x_ready y = x_ready x) as [E1 E3] by by apply set_state_eq in E as [[-> _]|[-> _]].
      assert (Nc : HClose ∉ x_ready x) by (intros [?|[?|?]]%(c_hclose x C); destruct Hs; congruence).
      constructor; simpl; rewrite ?Ey, ?E1, ?E3; auto.
      + intros [?|[?|?]]; done.
      + rewrite !elem_of_app. intros [[?|Hj]|Hj%elem_of_list_singleton]; [done| |done]. rewrite <- !elem_of_app in Hj. apply junk_in in Hj; [done|by left].
      + intros [?|?]; done.
    - destruct (set_state _ x) as [y|] eqn:E; [|done]. intros [= <-]. eapply cl_close; [exact C|exact E|]. destruct e; auto. }
  unfold process_error. destruct (x_state x), e; auto; by intros [= <-].
Qed.
Lemma start_cl x x' : cl x -> start_receive x = Some x' -> cl x'.
Proof. unfold start_receive. intros C. destruct (x_state x) eqn:E; [|done..]. intros [= <-]. by apply (cl_same x). Qed.
Lemma step_cl x e x' : cl x -> io_ok x e -> x_step x e = Some x' -> cl x'.
Proof.
  intros C Hok H. destruct e as [p| |b| | |i k|i e|d|e|r]; simpl in H.
  - apply (cl_same x); [done|..]; unfold transport_send, do_send in H; (destruct (x_state x) eqn:?; try (by injection H as <-)); (destruct (x_sendq x); simpl in H; [unfold send_from_queue in H; simpl in H|]; by injection H as <-).
  - unfold transport_close in H. destruct (x_state x) eqn:Es; try (by injection H as <-); (destruct (set_state _ x) as [y|] eqn:E; [|done]); injection H as <-; (eapply cl_close; [exact C|exact E|by left]).
  - assert (C' : cl (set_xperm b x)) by by apply (cl_same x). unfold change_persistency in H. destruct (_ && _); [|by injection H as <-]. destruct (x_state (set_xperm b x)) eqn:Es; try (by injection H as <-). destruct (set_state _ _) as [y|] eqn:E; [|done]. injection H as <-. eapply cl_close; [exact C'|exact E|by right].
  - injection H as <-. simpl in Hok. destruct (c_timer x C Hok) as [Hs Ht].
    assert (C' : cl (cancel (set_timer false x))) by (apply cl_cancel; apply (cl_frame x); auto; done).
    apply (cl_frame (cancel (set_timer false x))); auto; simpl; rewrite ?elem_of_app, ?elem_of_list_singleton; intuition congruence.
  - destruct (x_ready x) as [|h l] eqn:Er; [by injection H as <-|]. destruct h as [r n|r d| | |r].
    + pose proof (cl_pop _ _ _ C Er ltac:(done)) as C'. destruct r as [e|]; [by eapply error_cl|]. simpl in H. destruct (x_sendq x) as [|p q]; [done|]. destruct (_ =? _)%N; [|done].
      apply (cl_same (set_ready l x)); [done|..]; (destruct q; [by injection H as <-|]; unfold send_from_queue in H; simpl in H; by injection H as <-).
    + pose proof (cl_pop _ _ _ C Er ltac:(done)) as C'. destruct r as [e|]; [by eapply error_cl|]. cbn -[parse] in H. destruct (parse _ _) as [es [|b rest]]; [eapply start_cl; [|exact H]; by apply (cl_same (set_ready l x))|].
      destruct (negb _); [eapply start_cl; [|exact H]; by apply (cl_same (set_ready l x))|]. destruct (_ =? _)%N; [|eapply start_cl; [|exact H]; by apply (cl_same (set_ready l x))].
      destruct (set_state TFailed _) as [y|] eqn:Es; [|done]. injection H as <-. eapply cl_close; [|exact Es|by right]. by apply (cl_same (set_ready l x)).
    + assert (Hs : shutting (x_state x)) by (apply (c_hclose x C); rewrite Er; left). unfold deferred_close in H.
      assert (N1 : x_state x <> TDown /\ x_state x <> TUp) by (destruct Hs as [->|[->| ->]]; done).
      destruct (set_state_hop _ _ _ H) as [_ E1]. assert (E2 : x_tcp x' = x_tcp x /\ x_timer x' = x_timer x /\ x_open x' = false /\ forall h, h ∈ x_ready x' -> h ∈ x_ready x \/ h <> HReconnect).
      { assert (forall h, h ∈ l ++ map (fun w : list N * N => HSend (Some EAborted) 0) (x_w x) ++ replicate (x_r x) (HRecv (Some EAborted) []) ++ replicate (x_c x) (HConn (Some EAborted)) -> h ∈ x_ready x \/ h <> HReconnect).
        { rewrite Er. intros h [Hh|Hh]%elem_of_app; [left; by right|]. right. intros ->. apply junk_in in Hh; [done|by right]. }
        apply set_state_eq in H as [[-> _]|[-> _]]; done. }
      destruct E2 as (E2 & E3 & E4 & E5). constructor; rewrite ?E1, ?E2, ?E3, ?E4.
      * by right.
      * intros _. by right; right.
      * intros [?|?]; done.
      * intros Ht. destruct (c_timer x C Ht) as [? _]. tauto.
      * intros Hh. destruct (E5 _ Hh) as [Hh'|]; [by apply (c_reconn x C)|done].
      * done.
    + pose proof (cl_pop _ _ _ C Er ltac:(done)) as C'. unfold reconnect in H. simpl in H. destruct (x_state x) eqn:Es; try done; try (by injection H as <-). destruct (x_perm x); [|done]. injection H as <-.
      assert (Ht : x_tcp x = true) by by apply (c_down x C). pose proof (cl_cancel _ C') as C''.
      assert (Nc : HClose ∉ x_ready (cancel (set_ready l x))) by (intros [?|[?|?]]%(c_hclose _ C''); simpl in *; congruence).
      constructor; simpl; rewrite ?Es; auto; try (by intros [?|[?|?]]); try (by intros [?|?]). intros Hc. by exfalso; apply Nc.
    + pose proof (cl_pop _ _ _ C Er ltac:(done)) as C'.
      assert (G : shutting (x_state x) \/ (forall y, set_state TUp (set_timer false (set_ready l x)) = Some y -> start_receive y = Some x' -> cl x')).
      { destruct (x_state x) eqn:Es; [right|right|left; unfold shutting; tauto..].
        all: intros y E H'; eapply start_cl; [|exact H']; destruct (set_state_hop _ _ _ E) as [_ E1].
        all: assert (Nc : HClose ∉ l) by (intros Hc; apply (c_hclose _ C') in Hc; simpl in Hc; rewrite Es in Hc; by destruct Hc as [?|[?|?]]).
        all: apply set_state_eq in E as [[-> _]|[-> _]]; constructor; simpl in *; try done; rewrite ?E1; try (by intros [?|[?|?]]); try (by intros [?|?]).
        all: first [done|apply (c_reconn _ C')]. }
      unfold handle_reconnect in H. simpl in H. destruct (x_state x) eqn:Es, r; try (by injection H as <-).
      all: destruct G as [[?|[?|?]]|G]; [done..|]; destruct (set_state _ _) as [y|] eqn:E; [|done]; by eapply G.
  - destruct (x_w x !! i) as [[p n]|]; [|by injection H as <-]. destruct (_ <=? _)%nat; injection H as <-; [apply cl_queue; [|done..]|]; by apply (cl_same x).
  - injection H as <-. apply cl_queue; [|done..]. by apply (cl_same x).
  - injection H as <-. apply cl_queue; [|done..]. by apply (cl_same x).
  - injection H as <-. apply cl_queue; [|done..]. by apply (cl_same x).
  - injection H as <-. apply cl_queue; [|done..]. by apply (cl_same x).
Qed.
Lemma cl_new tcp perm : cl (x_new tcp perm).
Proof. constructor; simpl; try done; try (by intros [?|[?|?]]); try (by intros [?|?]); by intros ?%elem_of_nil. Qed.
Lemma reached_cl x : x_reached x -> cl x.
Proof. intros (tcp & perm & l & H). remember (x_new tcp perm) as x0. induction H; [subst; apply cl_new|]. eapply step_cl; eauto. Qed.
