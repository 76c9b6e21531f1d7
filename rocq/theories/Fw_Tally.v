(** The counters of packets count the packets: each counter of the forwarder grows with the log of packets in and out *)
From stdpp Require Import gmap.
From Verif Require Import Lib Name_Model Packet_Model Nt_Model Tree_Model Tab_Model Tab_Spec Fw_Model Fw_Spec Fw_Inv Fw_Case Fw_Case2 Fw_Case3 Fw_Hist Fw_Acc Fw_Step Fw_Out Fw_Main.
From Verif Require Cs_Model Dnl_Model.

(** how many packets in a log are of a kind *)
Definition how_many (P : io -> bool) (l : list io) : N := N.of_nat (length (List.filter P l)).
Lemma how_many_app P l1 l2 : how_many P (l1 ++ l2) = (how_many P l1 + how_many P l2)%N.
Proof. unfold how_many. rewrite List.filter_app, app_length. lia. Qed.

Section tally.
  Variable sort_nexthops : list nexthop -> list nexthop.
  Variable create_strategy : name -> create_result.
  Variable same_type : name -> name -> bool.
  Variable make_entry : name -> N -> Dnl_Model.fingerprint.
  Variable rand : nat -> nat.
  Variable face_order : list N -> list N.
  Variable strategies : name -> strategy.
  Notation event_fn := (fw_event sort_nexthops create_strategy same_type make_entry rand face_order strategies).
  Notation step := (fw_step sort_nexthops create_strategy same_type make_entry rand face_order strategies).
  Notation reachable := (fw_reachable sort_nexthops create_strategy same_type make_entry rand face_order strategies).
  (** a counter, and the packets that it counts *)
  Variable g : counters -> N.
  Variable P : io -> bool.
  Definition steady (x : counters -> counters) : Prop := forall c, g (x c) = g c.
  Definition paired (o : io) (x : counters -> counters) : Prop := forall c, g (x c) = if P o then inc64 (g c) else g c.
  Record right : Prop := {
    rt_ii : forall f i, paired (Rx_interest f i) inc_in_interests;
    rt_id : forall f d, paired (Rx_data f d) inc_in_data;
    rt_in : forall f i r, paired (Rx_nack f i r) inc_in_nacks;
    rt_oi : forall f i, paired (Tx_interest f i) inc_out_interests;
    rt_od : forall f d t, paired (Tx_data f d t) inc_out_data;
    rt_on : forall f i r, paired (Tx_nack f i r) inc_out_nacks;
    rt_sat : steady inc_satisfied; rt_unsat : steady inc_unsatisfied; rt_unsol : steady inc_unsolicited;
    rt_hit : steady inc_cs_hits; rt_miss : steady inc_cs_misses; rt_h1 : forall f, steady (inc_in_hop0 f); rt_h2 : forall f, steady (inc_out_hop0 f);
  }.
  Hypothesis Hr : right.

  Definition tallied (s s' : fw) : Prop := exists l, fw_log s' = l ++ fw_log s /\
    ((g (fw_cnt s) < 2 ^ 64)%N -> g (fw_cnt s') = ((g (fw_cnt s) + how_many P l) mod 2 ^ 64)%N).
  Lemma tallied_same s s' : fw_log s' = fw_log s -> g (fw_cnt s') = g (fw_cnt s) -> tallied s s'.
  Proof using. intros H1 H2. exists []. split; [done|]. intros H. rewrite H2. unfold how_many. cbn [List.filter length]. rewrite N.add_0_r. by rewrite N.mod_small. Qed.
  Lemma tallied_trans s1 s2 s3 : tallied s1 s2 -> tallied s2 s3 -> tallied s1 s3.
  Proof using.
    intros (l1 & A1 & A2) (l2 & B1 & B2). exists (l2 ++ l1). split; [by rewrite B1, A1, app_assoc|]. intros H. specialize (A2 H).
    rewrite B2 by (rewrite A2; apply N.mod_lt; done). rewrite A2, how_many_app, N.add_mod_idemp_l by done. f_equal. lia.
  Qed.
  Lemma tallied_pair o x s : paired o x -> tallied s (set_cnt (x (fw_cnt s)) (set_log (o :: fw_log s) s)).
  Proof using.
    intros Hp. exists [o]. split; [done|]. intros H. simpl. rewrite Hp. unfold how_many. cbn [List.filter]. destruct (P o); cbn [length].
    - unfold inc64, U64. done.
    - rewrite N.add_0_r. by rewrite N.mod_small.
  Qed.

  Definition fair {A} (m : M A) : Prop := forall s s' a, m s = Some (s', a) -> tallied s s'.
  Lemma fair_ret {A} (a : A) : fair (ret a).
  Proof using. intros s s' b [= <- <-]. by apply tallied_same. Qed.
  Lemma fair_fail {A} : fair (@fail A).
  Proof using. by intros s s' b. Qed.
  Lemma fair_bind {A B} (m : M A) (q : A -> M B) : fair m -> (forall a, fair (q a)) -> fair (bind m q).
  Proof using. intros Hm Hq s s' b (s1 & a & H1 & H2)%bind_Some. eapply tallied_trans; [by eapply Hm|by eapply Hq]. Qed.
  Lemma fair_get : fair get.
  Proof using. intros s s' b [= <- <-]. by apply tallied_same. Qed.
  Lemma fair_put h : (forall s, tallied s (h s)) -> fair (put h).
  Proof using. intros H s s' b [= <- <-]. apply H. Qed.
  Lemma fair_tab h : fair (tab h).
  Proof using. intros s s' b. unfold tab. destruct (h (fw_t s)); [|done]. intros [= <- <-]. by apply tallied_same. Qed.
  Lemma fair_count x : steady x -> fair (count x).
  Proof using. intros Hx. apply fair_put. intros s. apply tallied_same; [done|]. simpl. apply Hx. Qed.
  Lemma fair_pair o x : paired o x -> fair (bind (emit o) (fun _ => count x)).
  Proof using. intros Hp s s' b (s1 & a & [= <- <-] & [= <- <-])%bind_Some. by apply tallied_pair. Qed.
  Lemma fair_pair_then {A} o x (q : unit -> M A) : paired o x -> (forall u, fair (q u)) -> fair (bind (emit o) (fun _ => bind (count x) q)).
  Proof using.
    intros Hp Hq s s' b (s1 & a & [= <- <-] & (s2 & v & [= <- <-] & H)%bind_Some)%bind_Some. eapply tallied_trans; [by apply tallied_pair|]. by eapply Hq.
  Qed.
  Lemma fair_each {A} (l : list A) q : (forall a, fair (q a)) -> fair (each l q).
  Proof using. intros H. induction l; simpl; [apply fair_ret|]. apply fair_bind; [done|]. by intros _. Qed.
  Lemma fair_entry k : fair (entry k).
  Proof using. intros s s' b. unfold entry. destruct (pit_get _ _); [|done]. intros [= <- <-]. by apply tallied_same. Qed.
  Lemma fair_face f : fair (face_of f).
  Proof using. intros s s' b. unfold face_of. destruct (_ !! _); [|done]. intros [= <- <-]. by apply tallied_same. Qed.
  Lemma fair_upd k h : fair (upd_entry k h).
  Proof using. apply fair_bind; [apply fair_entry|]. intros _. apply fair_tab. Qed.
  Lemma fair_rand rnd : fair (next_rand rnd).
  Proof using. intros s s' b [= <- <-]. by apply tallied_same. Qed.
  Lemma fair_strategy st n : fair (strategy_for st n).
  Proof using. intros s s' b. unfold strategy_for. destruct (effective _ _) as [[? ?]|]; [|done]. intros [= <- <-]. by apply tallied_same. Qed.
  Lemma fair_insert d u : fair (cs_insert d u).
  Proof using. intros s s' b. unfold cs_insert. destruct (Cs_Model.cs_insert _ _ _ _); [|done]. intros [= <- <-]. by apply tallied_same. Qed.
  Lemma fair_pit_insert i : fair (fun s => match pit_insert i (fw_t s) with Some (T, e, is_new) => Some (set_t T s, (e, is_new)) | None => None end).
  Proof using. intros s s' x. destruct (pit_insert _ _) as [[[? ?] ?]|]; [|done]. intros [= <- <-]. by apply tallied_same. Qed.
  Lemma fair_find i : fair (fun s => match Cs_Model.cs_find (now (fw_t s)) i (fw_cs s) with Some (c, r) => Some (set_cs c s, r) | None => None end).
  Proof using. intros s s' x. destruct (Cs_Model.cs_find _ _ _) as [[? ?]|]; [|done]. intros [= <- <-]. by apply tallied_same. Qed.
  Ltac fr := repeat first
    [ apply fair_ret | apply fair_fail | apply fair_get | apply fair_tab | (apply fair_count; apply Hr) | (apply fair_pair_then; [apply Hr|intros ?]) | (apply fair_pair; apply Hr) | apply fair_entry
    | apply fair_face | apply fair_upd | apply fair_rand | apply fair_strategy | apply fair_insert | apply fair_pit_insert | apply fair_find
    | (apply fair_put; intros ?; by apply tallied_same) | (apply fair_bind; [|intros ?]) | (apply fair_each; intros ?) | done | case_match ].

  Lemma fair_out_data d tok f : fair (on_outgoing_data d tok f).
  Proof using Hr. unfold on_outgoing_data. fr. Qed.
  Lemma fair_send_data d tok f k : fair (send_data d tok f k).
  Proof using Hr. unfold send_data. fr; try apply fair_out_data. Qed.
  Lemma fair_all d f k : fair (send_data_to_all face_order d f k).
  Proof using Hr. unfold send_data_to_all. fr; try apply fair_send_data. Qed.
  Lemma fair_out_interest i f k : fair (on_outgoing_interest i f k).
  Proof using Hr. unfold on_outgoing_interest. fr. Qed.
  Lemma fair_out_nack r f k : fair (on_outgoing_nack r f k).
  Proof using Hr. unfold on_outgoing_nack. fr. Qed.
  Lemma fair_set_expiry k ms : fair (set_expiry k ms).
  Proof using Hr. unfold set_expiry. fr. Qed.
  Lemma fair_run trig k p : fair (run rand face_order trig k p).
  Proof using Hr.
    induction p; simpl; fr; eauto; unfold the_interest; fr; try apply fair_out_interest; try apply fair_all; try apply fair_out_nack; try apply fair_set_expiry.
  Qed.
  Lemma fair_dnl k u : fair (insert_dead_nonce_list make_entry rand k u).
  Proof using Hr. unfold insert_dead_nonce_list. fr. Qed.
  Lemma fair_loop i f : fair (on_interest_loop strategies i f).
  Proof using Hr. unfold on_interest_loop. fr. Qed.
  Lemma fair_miss i f k new : fair (on_cs_miss rand face_order strategies i f k new).
  Proof using Hr. unfold on_cs_miss. fr; try first [apply fair_set_expiry|apply fair_out_interest|apply fair_run]. Qed.
  Lemma fair_hit i f k d : fair (on_cs_hit strategies i f k d).
  Proof using Hr. unfold on_cs_hit, mark_satisfied. fr; try first [apply fair_set_expiry|apply fair_send_data]. Qed.
  Lemma fair_interest i f : fair (on_incoming_interest make_entry rand face_order strategies i f).
  Proof using Hr. unfold on_incoming_interest. fr; try apply fair_loop; try apply fair_hit; try apply fair_miss; try apply fair_run. Qed.
  Lemma fair_satisfy d f ks : forall pend, fair (satisfy_all make_entry rand face_order strategies d f ks pend).
  Proof using Hr.
    induction ks as [|k ks IH]; intros pend; simpl; unfold mark_satisfied; fr; try first [apply fair_set_expiry|apply fair_run|apply fair_dnl|apply IH].
  Qed.
  Lemma fair_data d f : fair (on_incoming_data make_entry rand face_order strategies d f).
  Proof using Hr.
    unfold on_incoming_data, on_data_unsolicited, after_receive_data, mark_satisfied.
    fr; try first [apply fair_set_expiry|apply fair_run|apply fair_dnl|apply fair_satisfy|apply fair_all|apply fair_out_data].
  Qed.
  Lemma fair_nack i r f : fair (on_incoming_nack rand face_order strategies i r f).
  Proof using Hr. unfold on_incoming_nack. fr; try first [apply fair_set_expiry|apply fair_run]. Qed.
  Lemma fair_newhop p nh : fair (on_new_next_hop rand face_order strategies p nh).
  Proof using Hr. unfold on_new_next_hop. fr; try apply fair_run. Qed.
  Lemma fair_fib_add p f c : fair (fib_mgr_add sort_nexthops rand face_order strategies p f c).
  Proof using Hr.
    unfold fib_mgr_add. fr; try apply fair_newhop; try apply fair_run. intros s s' x. destruct (fib_add_nexthop _ _ _ _ _) as [[? ?]|]; [|done]. intros [= <- <-]. by apply tallied_same.
  Qed.
  Lemma fair_finalize k : fair (on_interest_finalize make_entry rand k).
  Proof using Hr. unfold on_interest_finalize. fr; try apply fair_dnl. Qed.
  Lemma event_fair ev : fair (event_fn ev).
  Proof using Hr.
    destruct ev; simpl in *; try first [apply fair_interest|apply fair_data|apply fair_nack|apply fair_run|apply fair_fib_add|apply fair_finalize]; fr.
    - unfold face_add. fr. intros s1 s2 x. unfold face_add_impl. case_match; [done|]. intros Hx. injection Hx as <- <-. by apply tallied_same.
    - unfold face_add_reserved. fr. intros s1 s2 x. unfold face_add_impl. case_match; [done|]. intros Hx. injection Hx as <- <-. by apply tallied_same.
    - intros s1 s2 x. destruct (Cs_Model.cs_step (fw_cs s1) o) as [[? ?]|]; [|done]. intros [= <- <-]. by apply tallied_same.
  Qed.
  Lemma reachable_tally s : (forall c, g (Counters 0 0 0 0 0 0 0 0 0 0 0 [] c) = 0%N) -> reachable s -> g (fw_cnt s) = (how_many P (fw_log s) mod 2 ^ 64)%N.
  Proof using Hr.
    intros H0. induction 1 as [def limit s H|s ev s' R IH Ho Hs].
    - unfold fw_new in H. destruct (sc_set_default _ _ _); [|done]. destruct (Dnl_Model.dnl_new DNL_LIFETIME) as [d|]; [|done]. injection H as <-. simpl. apply H0.
    - apply step_event in Hs. destruct (event_fair ev _ _ _ Hs) as (l & Hl & Hg). rewrite Hg by (rewrite IH; apply N.mod_lt; done).
      rewrite IH, Hl, how_many_app, N.add_mod_idemp_l by done. f_equal. lia.
  Qed.
End tally.
