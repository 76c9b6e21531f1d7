(** C79: WebSocket faces. *)
From stdpp Require Import gmap.
From Verif Require Import Lib Fm_Model Lp_Model Tp_Model Tp_Spec Tp_Proof Ws_Model Ws_Spec Ws_Proof.
Open Scope list_scope.

(** ** Scope *)
Lemma div_range a b n : (0 < b)%N -> (n / b = a <-> a * b <= n < (a + 1) * b)%N.
Proof. intros Hb. split; [intros <-|]; [|intros H; symmetry; apply (N.div_unique n b a (n - a * b)); lia]. pose proof (N.div_mod n b ltac:(lia)) as E. pose proof (N.mod_lt n b ltac:(lia)). nia. Qed.
(** Loopback addresses are 127.0.0.0/8, ::1, and the former as IPv4-mapped IPv6 addresses. *)
Theorem C79_loopback a : addr_ok a -> ws_loopback a = true <-> loopback a.
Proof.
  intros Ha. unfold ws_loopback, asio_loopback, loopback. destruct a as [n|n].
  - destruct (N.eqb_spec (n / 2 ^ 24) 127) as [E|E]; rewrite div_range in E by lia; (split; [intros|]); try done; lia.
  - destruct (N.eqb_spec n 1) as [E|E]; [split; [by left|done]|].
    destruct (N.eqb_spec (n / 2 ^ 32) 65535) as [E2|E2]; rewrite div_range in E2 by lia.
    + pose proof (N.div_mod n (2 ^ 32) ltac:(lia)) as Hd. assert (n / 2 ^ 32 = 65535)%N as Hq by (apply div_range; lia). rewrite Hq in Hd.
      rewrite N.eqb_eq, div_range by lia. split; [intros H; right; lia|]. intros [?|H]; [done|lia].
    + split; [done|]. intros [?|H]; [done|lia].
Qed.
(** A new connection gets one face, which is announced; it is UP, and local exactly if both ends are loopback addresses. *)
Theorem C79_open now s h l r : addr_ok l -> addr_ok r -> exists sc, (sc = true <-> loopback l /\ loopback r) /\
  ws_step now s (WOpen h (Some (l, r))) = Some (Ws (ws_interval s) (ws_timeout s)
    (<[h := Wsf sc TUp true true (Some (now + ws_interval s)%Z) None 0 0 0 0 0 0 [] [] []]> (ws_conns s)) (ws_told s ++ [h])).
Proof. intros Hl Hr. exists (ws_loopback l && ws_loopback r). split; [by rewrite andb_true_iff, !C79_loopback|done]. Qed.

(** ** States *)
(** At any time a face is UP, known to the channel and has its next ping scheduled; or it is CLOSED, forgotten by the channel, its connection closed and its ping cancelled, and it went
    through exactly CLOSING or FAILED, and CLOSED. *)
Theorem C79_states late i d t0 t heard s h x : ws_hist late (ws_channel_with i d) t0 t heard s -> ws_conns s !! h = Some x ->
  (w_state x = TUp /\ w_listed x = true /\ w_open x = true /\ is_Some (w_ping x) /\ w_changes x = []) \/
  (w_state x = TClosed /\ w_listed x = false /\ w_open x = false /\ w_ping x = None /\ whole_life (w_changes x)).
Proof. intros H E. by destruct (hist_ok _ _ _ _ _ _ _ H h x E) as [Hx|Hx]; [left|right]. Qed.
(** No exception leaves a handler. *)
Theorem C79_no_exception late i d t0 t heard s now e : ws_hist late (ws_channel_with i d) t0 t heard s -> ws_env now s e -> is_Some (ws_step now s e).
Proof. intros H He. destruct (step_ok now s e (hist_ok _ _ _ _ _ _ _ H) He) as (s' & E & _). by exists s'. Qed.
(** Every connection is announced exactly once. *)
Theorem C79_told late i d t0 t heard s : ws_hist late (ws_channel_with i d) t0 t heard s -> NoDup (ws_told s) /\ forall h, h ∈ ws_told s <-> is_Some (ws_conns s !! h).
Proof.
  intros H. induction H as [|t heard s t' e s' H IH Hle Hp He E].
  - split; [constructor|]. intros h. split; [by intros ?%not_elem_of_nil|by intros [? ?]].
  - destruct IH as [I1 I2]. destruct (step_others _ _ _ _ E) as (_ & _ & Ho & Hs).
    assert (Hcase : (ws_told s' = ws_told s /\ (is_Some (ws_conns s' !! target e) <-> is_Some (ws_conns s !! target e))) \/
                    (ws_told s' = ws_told s ++ [target e] /\ is_Some (ws_conns s' !! target e) /\ ws_conns s !! target e = None)).
    { destruct e; try (by left). right. destruct Hs, He. done. }
    destruct Hcase as [[-> Hi]|(-> & Hi & Hn)].
    + split; [done|]. intros h. rewrite I2. destruct (decide (h = target e)) as [->|Hne]; [by rewrite Hi|by rewrite (Ho h Hne)].
    + split.
      * apply NoDup_app. split; [done|]. split; [|by apply NoDup_singleton]. intros h Hh Hin. apply elem_of_list_singleton in Hin as ->. apply I2 in Hh. rewrite Hn in Hh. by destruct Hh.
      * intros h. rewrite elem_of_app, elem_of_list_singleton, I2. destruct (decide (h = target e)) as [->|Hne]; [split; [done|by right]|]. rewrite (Ho h Hne). split; [by intros [?| ->]|by left].
Qed.
(** An event on one connection leaves all others alone. *)
Theorem C79_others now s e s' h : ws_step now s e = Some s' ->
  match e with WOpen k _ | WMessage k _ | WPong k | WPongTimeout k | WPing k _ | WSend k _ _ | WPeerClose k | WClose k => h <> k end -> ws_conns s' !! h = ws_conns s !! h.
Proof. intros E Hne. destruct (step_others _ _ _ _ E) as (_ & _ & Ho & _). apply Ho. by destruct e. Qed.

(** ** What each event does to a face that is UP *)
Section up.
Context (s : ws) (h : N) (sc : bool) (ping : Z) (pong : option Z) (np ng no bo ni bi : N) (sent got : list (list N)).
Local Notation state := (fun x => Ws (ws_interval s) (ws_timeout s) (<[h := x]> (ws_conns s)) (ws_told s)).
Context (Hx : ws_conns s !! h = Some (Wsf sc TUp true true (Some ping) pong np ng no bo ni bi [] sent got)).
(** A message with a packet at its beginning passes that packet to the link service and is counted. *)
Theorem C79_message now b r : is_tlv b -> ws_step now s (WMessage h (b ++ r)) =
  Some (state (Wsf sc TUp true true (Some ping) pong np ng no bo (ni + 1) (bi + len b) [] sent (got ++ [b]))).
Proof using Hx. intros Hb. cbn. unfold via_table. rewrite Hx. cbn. unfold ws_message. assert (from_buffer (b ++ r) = Some (b, r)) as -> by by apply from_buffer_spec. done. Qed.
(** Any other message is ignored. *)
Theorem C79_bad_message now m : (forall b r, m = b ++ r -> ~ is_tlv b) -> ws_step now s (WMessage h m) = Some s.
Proof using Hx.
  intros Hm. cbn. unfold via_table. rewrite Hx. cbn. unfold ws_message. destruct (from_buffer m) as [[b r]|] eqn:E; [apply from_buffer_spec in E as [E Hb]; by destruct (Hm b r E)|].
  unfold put. rewrite insert_id by done. by destruct s.
Qed.
(** A packet is sent and counted; if websocketpp refuses, the face fails and is closed. *)
Theorem C79_send now b err : ws_step now s (WSend h b err) =
  Some (state (if err then Wsf sc TClosed false false None pong np ng (no + 1) (bo + len b) ni bi [TFailed; TClosed] sent got
               else Wsf sc TUp true true (Some ping) pong np ng (no + 1) (bo + len b) ni bi [] (sent ++ [b]) got)).
Proof using Hx. cbn. unfold via_face. rewrite Hx. cbn. by destruct err. Qed.
(** A ping is counted, starts the pong timer and schedules the next ping; if websocketpp refuses, the face fails and is closed. *)
Theorem C79_ping now err : (0 < ws_timeout s)%Z -> ws_step now s (WPing h err) =
  Some (state (if err then Wsf sc TClosed false false None pong np ng no bo ni bi [TFailed; TClosed] sent got
               else Wsf sc TUp true true (Some (now + ws_interval s)%Z) (Some (now + ws_timeout s)%Z) (np + 1) ng no bo ni bi [] sent got)).
Proof using Hx. intros Ht. cbn. unfold via_face. rewrite Hx. unfold ws_ping. cbn. destruct (Z.ltb_spec 0 (ws_timeout s)); [|lia]. by destruct err. Qed.
(** A pong is counted. *)
Theorem C79_pong now : ws_step now s (WPong h) = Some (state (Wsf sc TUp true true (Some ping) None np (ng + 1) no bo ni bi [] sent got)).
Proof using Hx.
  cbn [ws_step]. unfold via_face. rewrite Hx. unfold via_table. rewrite put_lookup. unfold put. cbn [w_listed set_wconn w_open w_ping w_pong ws_conns ws_interval ws_timeout ws_told].
  rewrite ?fail_up by done. by rewrite insert_insert.
Qed.
(** A missing pong fails and closes the face. *)
Theorem C79_pong_timeout now : ws_step now s (WPongTimeout h) = Some (state (Wsf sc TClosed false false None None np ng no bo ni bi [TFailed; TClosed] sent got)).
Proof using Hx.
  cbn [ws_step]. unfold via_face. rewrite Hx. unfold via_table. rewrite put_lookup. unfold put. cbn [w_listed set_wconn w_open w_ping w_pong ws_conns ws_interval ws_timeout ws_told].
  rewrite ?fail_up by done. by rewrite insert_insert.
Qed.
(** Closing by either side closes the face. *)
Theorem C79_close now e : e = WClose h \/ e = WPeerClose h -> ws_step now s e = Some (state (Wsf sc TClosed false false None pong np ng no bo ni bi [TClosing; TClosed] sent got)).
Proof using Hx.
  intros [->| ->]; cbn [ws_step]; unfold via_face; rewrite Hx; [done|]. unfold via_table. rewrite put_lookup. unfold put. cbn [w_listed set_wconn w_open w_ping w_pong ws_conns ws_interval ws_timeout ws_told].
  rewrite close_up by done. by rewrite insert_insert.
Qed.
End up.
(** A face that is CLOSED sends, receives and counts nothing any more, and never leaves that state. *)
Theorem C79_closed late i d t0 t heard s now e s' h x :
  ws_hist late (ws_channel_with i d) t0 t heard s -> ws_env now s e -> ws_step now s e = Some s' -> ws_conns s !! h = Some x -> w_state x = TClosed ->
  exists pong, ws_conns s' !! h = Some (Wsf (w_local_scope x) TClosed false false None pong (w_npings x) (w_npongs x) (w_nout x) (w_bout x) (w_nin x) (w_bin x) (w_changes x) (w_sent x) (w_got x)).
Proof.
  intros H He E Ex Hst. destruct (hist_ok _ _ _ _ _ _ _ H h x Ex) as [(U & _)|(_ & G2 & G3 & G4 & G5)]; [congruence|].
  assert (Hsame : x = Wsf (w_local_scope x) TClosed false false None (w_pong x) (w_npings x) (w_npongs x) (w_nout x) (w_bout x) (w_nin x) (w_bin x) (w_changes x) (w_sent x) (w_got x)).
  { destruct x; cbn in *; by subst. }
  destruct (decide (h = target e)) as [->|Hne].
  2:{ destruct (step_others _ _ _ _ E) as (_ & _ & Ho & _). rewrite (Ho h Hne). exists (w_pong x). rewrite Ex. by f_equal. }
  destruct e as [h ends|h m|h|h|h err|h b err|h|h]; cbn [target ws_step] in *.
  - destruct He as [He _]. congruence.
  - unfold via_table in E. rewrite Ex, G2 in E. injection E as <-. exists (w_pong x). rewrite Ex. by f_equal.
  - unfold via_face in E. rewrite Ex in E. unfold via_table in E. rewrite put_lookup in E. cbn [w_listed set_wconn] in E. rewrite G2 in E. injection E as <-. exists None. rewrite put_lookup.
    unfold set_wconn. by rewrite Hst, G2, G3, G4.
  - unfold via_face in E. rewrite Ex in E. unfold via_table in E. rewrite put_lookup in E. cbn [w_listed set_wconn] in E. rewrite G2 in E. injection E as <-. exists None. rewrite put_lookup.
    unfold set_wconn. by rewrite Hst, G2, G3, G4.
  - destruct He as (x' & dd & Ex' & Ed & _). congruence.
  - unfold via_face in E. rewrite Ex in E. unfold ws_send in E. rewrite Hst in E. injection E as <-. exists (w_pong x). rewrite put_lookup. by f_equal.
  - unfold via_face in E. rewrite Ex in E. unfold via_table in E. rewrite put_lookup in E. cbn [w_listed set_wconn] in E. rewrite G2 in E. injection E as <-. exists (w_pong x). rewrite put_lookup.
    unfold set_wconn. by rewrite Hst, G2, G4.
  - unfold via_face in E. rewrite Ex in E. rewrite close_gone in E by done. injection E as <-. exists (w_pong x). rewrite put_lookup. by f_equal.
Qed.

(** ** Dead peers *)
(** If timers fire in time and the pong timeout is shorter than the ping interval, a face is not UP for longer than both together after its peer was last heard. *)
Theorem C79_dead_peer i d t0 t heard s h x last :
  (0 < d < i)%Z -> ws_hist false (ws_channel_with i d) t0 t heard s -> ws_conns s !! h = Some x -> w_state x = TUp -> heard !! h = Some last -> (t <= last + i + d)%Z.
Proof.
  intros Hd H Ex Hx Hl. destruct (hist_live _ _ _ _ _ _ _ _ Hd H Ex Hx) as [(s0 & u & L1 & L2 & L3 & L4)]. assert (s0 = last) as -> by congruence. destruct L4 as [[_ ?]|(_ & ? & ? & _)]; lia.
Qed.
(** A pong timeout never hits a face whose peer was heard within the timeout. *)
Theorem C79_live_peer late i d t0 t heard s h x last now :
  ws_hist late (ws_channel_with i d) t0 t heard s -> ws_conns s !! h = Some x -> w_state x = TUp -> heard !! h = Some last -> ws_env now s (WPongTimeout h) -> (last + d <= now)%Z.
Proof.
  intros H Ex Hx Hl (x' & e & Ex' & Ee & Hn). assert (x' = x) as -> by congruence. destruct (hist_times _ _ _ _ _ _ _ _ _ H Ex Hx) as [_ Hp]. specialize (Hp e last Ee Hl). lia.
Qed.
(** The values that are used: ten and five seconds. *)
Theorem C79_defaults : ws_channel = ws_channel_with 10000 5000.
Proof. done. Qed.

(** ** What does not hold *)
Definition lo : ip := V4 (127 * 2 ^ 24 + 1).
(** If the peer has gone when its connection is reported as open, the exception of remote_endpoint leaves the handler. *)
Theorem C79_escape_refuted : ~ (forall late i d t0 t heard s now h ends, ws_hist late (ws_channel_with i d) t0 t heard s -> ws_conns s !! h = None -> is_Some (ws_step now s (WOpen h ends))).
Proof. intros H. destruct (H true 10%Z 5%Z 0%Z 0%Z ∅ (ws_channel_with 10 5) 0%Z 0%N None) as [s E]; [constructor|done|done]. Qed.
(** If the pong timeout is not shorter than the ping interval, a dead peer is never noticed: every ping restarts the pong timer. *)
Theorem C79_slow_refuted :
  ~ (forall i d, (0 < i)%Z -> (0 < d)%Z -> exists bound, forall t heard s h x last, ws_hist false (ws_channel_with i d) 0 t heard s -> ws_conns s !! h = Some x -> w_state x = TUp -> heard !! h = Some last -> (t <= last + bound)%Z).
Proof.
  intros H. destruct (H 5%Z 10%Z) as [bound Hb]; [lia|lia|].
  set (x n := Wsf true TUp true true (Some (5 * Z.of_nat n + 10)%Z) (Some (5 * Z.of_nat n + 15)%Z) (N.of_nat n + 1) 0 0 0 0 0 [] [] []).
  assert (Hn : forall n, ws_hist false (ws_channel_with 5 10) 0 (5 * Z.of_nat n + 5)%Z (<[0%N := 0%Z]> ∅) (Ws 5 10 (<[0%N := x n]> ∅) [0%N])).
  { intros n. induction n as [|n IH].
    - set (x0 := Wsf true TUp true true (Some 5%Z) None 0 0 0 0 0 0 [] [] []).
      apply (wh_snoc false (ws_channel_with 5 10) 0 0 (<[0%N := 0%Z]> ∅) (Ws 5 10 (<[0%N := x0]> ∅) [0%N]) 5 (WPing 0 false)).
      + apply (wh_snoc false (ws_channel_with 5 10) 0 0 ∅ (ws_channel_with 5 10) 0 (WOpen 0 (Some (lo, lo)))); [constructor|lia|intros _ h y d E; done|split; [done|by eexists]|done].
      + lia.
      + intros _ h y d. cbn. destruct (decide (h = 0%N)) as [->|]; [|by rewrite lookup_insert_ne]. rewrite lookup_insert. intros [= <-]. cbn. intros [[= <-]|E]; [lia|done].
      + exists x0, 5%Z. cbn. rewrite lookup_insert. split; [done|]. split; [done|lia].
      + rewrite (C79_ping _ 0%N true 5 None 0 0 0 0 0 0 [] []) by (cbn [ws_conns ws_timeout]; rewrite ?lookup_insert; first [done|lia]). cbn [ws_interval ws_timeout ws_conns ws_told]. by rewrite insert_insert.
    - apply (wh_snoc false (ws_channel_with 5 10) 0 (5 * Z.of_nat n + 5)%Z (<[0%N := 0%Z]> ∅) (Ws 5 10 (<[0%N := x n]> ∅) [0%N]) (5 * Z.of_nat (S n) + 5)%Z (WPing 0 false)); [done|lia| | |].
      + intros _ h y d. cbn [ws_conns]. destruct (decide (h = 0%N)) as [->|]; [|by rewrite lookup_insert_ne]. rewrite lookup_insert. intros [= <-]. cbn [x w_ping w_pong]. intros [[= <-]|[= <-]]; lia.
      + exists (x n), (5 * Z.of_nat n + 10)%Z. cbn [ws_conns]. rewrite lookup_insert. split; [done|]. split; [done|lia].
      + rewrite (C79_ping _ 0%N true (5 * Z.of_nat n + 10)%Z (Some (5 * Z.of_nat n + 15)%Z) (N.of_nat n + 1) 0 0 0 0 0 [] []) by (cbn [ws_conns ws_timeout]; rewrite ?lookup_insert; first [done|lia]).
        cbn [ws_interval ws_timeout ws_conns ws_told]. rewrite insert_insert. do 3 f_equal. unfold x. f_equal; [f_equal; lia|f_equal; lia|lia]. }
  specialize (Hb (5 * Z.of_nat (Z.to_nat bound) + 5)%Z (<[0%N := 0%Z]> ∅) (Ws 5 10 (<[0%N := x (Z.to_nat bound)]> ∅) [0%N]) 0%N (x (Z.to_nat bound)) 0%Z (Hn _) (lookup_insert _ _ _) eq_refl (lookup_insert _ _ _)). lia.
Qed.
(** Packets are not limited to 8800 octets, as they are on other faces. *)
Theorem C79_oversize_refuted :
  ~ (forall now s h x m s', ws_conns s !! h = Some x -> w_state x = TUp -> w_listed x = true -> w_got x = [] -> ws_step now s (WMessage h m) = Some s' -> forall y b, ws_conns s' !! h = Some y -> b ∈ w_got y -> (len b <= 8800)%N).
Proof.
  intros H. set (big := [6; 253; 35; 40]%N ++ replicate 9000 0%N). set (x := Wsf true TUp true true (Some 5%Z) None 0 0 0 0 0 0 [] [] []).
  assert (Hb : from_buffer big = Some (big, [])) by (vm_compute; reflexivity).
  set (s := Ws 10 5 (<[0%N := x]> ∅) [0%N]). assert (Hl : ws_conns s !! 0%N = Some x) by apply lookup_insert.
  assert (E : ws_step 0 s (WMessage 0 big) = Some (put 0 (add_wgot big x) s)). { cbn [ws_step]. unfold via_table. rewrite Hl. unfold ws_message. rewrite Hb. done. }
  specialize (H 0%Z s 0%N x big _ Hl eq_refl eq_refl eq_refl E (add_wgot big x) big (put_lookup _ _ _)). assert (len big <= 8800)%N as Hc by (apply H; by left). vm_compute in Hc. done.
Qed.
(** Of a message with two packets only the first is taken. *)
Theorem C79_two_packets_refuted :
  ~ (forall now s h x a b s' y, ws_conns s !! h = Some x -> w_state x = TUp -> w_listed x = true -> is_tlv a -> is_tlv b -> ws_step now s (WMessage h (a ++ b)) = Some s' -> ws_conns s' !! h = Some y ->
       w_got y = w_got x ++ [a; b]).
Proof.
  intros H. set (a := [6; 1; 9]%N). set (x := Wsf true TUp true true (Some 5%Z) None 0 0 0 0 0 0 [] [] []). set (s := Ws 10 5 (<[0%N := x]> ∅) [0%N]).
  assert (Ha : is_tlv a). { apply (from_buffer_spec a a []). reflexivity. }
  assert (Hl : ws_conns s !! 0%N = Some x) by apply lookup_insert.
  pose proof (C79_message s 0 true 5 None 0 0 0 0 0 0 [] [] Hl 0 a a Ha) as E. specialize (H 0%Z s 0%N x a a _ _ Hl eq_refl eq_refl Ha Ha E (lookup_insert _ _ _)). done.
Qed.

(** ** Cases *)
Definition ws_run (s : ws) (es : list (Z * ws_event)) : option ws := foldl (fun o e => match o with Some s => ws_step (fst e) s (snd e) | None => None end) (Some s) es.
Example C79_case_life :
  option_map (fun s => (option_map (fun x => (w_state x, w_npings x, w_npongs x, w_got x, w_sent x, w_changes x)) (ws_conns s !! 1%N), ws_told s))
    (ws_run ws_channel [(0%Z, WOpen 1 (Some (lo, lo))); (5%Z, WMessage 1 [6; 1; 9]%N); (6%Z, WSend 1 [5; 0]%N false); (10000%Z, WPing 1 false); (10030%Z, WPong 1); (20000%Z, WPing 1 false);
                        (25000%Z, WPongTimeout 1); (25001%Z, WMessage 1 [6; 1; 9]%N)])
  = Some (Some (TClosed, 2%N, 1%N, [[6; 1; 9]%N], [[5; 0]%N], [TFailed; TClosed]), [1%N]).
Proof. vm_compute. reflexivity. Qed.
Example C79_case_loopback : ws_loopback (V6 (65535 * 2 ^ 32 + 127 * 2 ^ 24 + 1)) = true /\ ws_loopback (V6 1) = true /\ ws_loopback (V4 (10 * 2 ^ 24 + 1)) = false /\ ws_loopback (V6 2) = false.
Proof. vm_compute. done. Qed.
(** the hypotheses about histories are met *)
Example C79_case_hist : exists s x, ws_hist false (ws_channel_with 10000 5000) 0 10030 (<[1%N := 10030%Z]> (<[1%N := 0%Z]> ∅)) s /\ ws_conns s !! 1%N = Some x /\ w_state x = TUp /\ w_npongs x = 1%N.
Proof.
  set (x0 := Wsf true TUp true true (Some 10000%Z) None 0 0 0 0 0 0 [] [] []). set (x1 := Wsf true TUp true true (Some 20000%Z) (Some 15000%Z) 1 0 0 0 0 0 [] [] []).
  set (x2 := Wsf true TUp true true (Some 20000%Z) None 1 1 0 0 0 0 [] [] []).
  exists (Ws 10000 5000 (<[1%N := x2]> ∅) [1%N]), x2. split; [|by split; [apply lookup_insert|]].
  apply (wh_snoc false _ 0 10000 (<[1%N := 0%Z]> ∅) (Ws 10000 5000 (<[1%N := x1]> ∅) [1%N]) 10030 (WPong 1)); [|lia| |done|].
  - apply (wh_snoc false _ 0 0 (<[1%N := 0%Z]> ∅) (Ws 10000 5000 (<[1%N := x0]> ∅) [1%N]) 10000 (WPing 1 false)); [|lia| | |].
    + apply (wh_snoc false _ 0 0 ∅ (ws_channel_with 10000 5000) 0 (WOpen 1 (Some (lo, lo)))); [constructor|lia|intros _ h y d E; done|split; [done|by eexists]|done].
    + intros _ h y d. cbn [ws_conns]. destruct (decide (h = 1%N)) as [->|]; [|by rewrite lookup_insert_ne]. rewrite lookup_insert. intros [= <-]. cbn [x0 w_ping w_pong]. intros [[= <-]|E]; [lia|done].
    + exists x0, 10000%Z. cbn [ws_conns]. rewrite lookup_insert. split; [done|]. split; [done|lia].
    + rewrite (C79_ping _ 1%N true 10000 None 0 0 0 0 0 0 [] []) by (cbn [ws_conns ws_timeout]; rewrite ?lookup_insert; first [done|lia]). cbn [ws_interval ws_timeout ws_conns ws_told]. by rewrite insert_insert.
  - intros _ h y d. cbn [ws_conns]. destruct (decide (h = 1%N)) as [->|]; [|by rewrite lookup_insert_ne]. rewrite lookup_insert. intros [= <-]. cbn [x1 w_ping w_pong]. intros [[= <-]|[= <-]]; lia.
  - rewrite (C79_pong _ 1%N true 20000 (Some 15000%Z) 1 0 0 0 0 0 [] []) by apply lookup_insert. cbn [ws_interval ws_timeout ws_conns ws_told]. by rewrite insert_insert.
Qed.
Print Assumptions C79_loopback.
Print Assumptions C79_open.
Print Assumptions C79_states.
Print Assumptions C79_no_exception.
Print Assumptions C79_told.
Print Assumptions C79_others.
Print Assumptions C79_message.
Print Assumptions C79_bad_message.
Print Assumptions C79_send.
Print Assumptions C79_ping.
Print Assumptions C79_pong.
Print Assumptions C79_pong_timeout.
Print Assumptions C79_close.
Print Assumptions C79_closed.
Print Assumptions C79_dead_peer.
Print Assumptions C79_live_peer.
Print Assumptions C79_defaults.
Print Assumptions C79_escape_refuted.
Print Assumptions C79_slow_refuted.
Print Assumptions C79_oversize_refuted.
Print Assumptions C79_two_packets_refuted.
