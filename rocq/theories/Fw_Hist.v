(** Invariants of whole histories of the forwarder *)
From stdpp Require Import gmap.
From Verif Require Import Lib Name_Model Name_Proof Packet_Model Nt_Model Nt_Spec Nt_Tree Tree_Model Tree_Proof Tab_Model Tab_Spec Tab_At Tab_Fib Tab_Pit Tab_Pit2 Tab_Meas Tab_Sc Tab_Clean Tab_Run Tab_Main Fw_Model Fw_Spec Fw_Inv Fw_Case Fw_Case2 Fw_Case3.
From Verif Require Cs_Model Cs_Spec Cs_Main Cs_Run Dnl_Model.

(** * Where forwarded Interests come from, and what the counters count *)
Definition from_log (l : list io) (j : interest) : Prop := exists g i, Rx_interest g i ∈ l /\ one_hop i j.
Definition stored_from (l : list io) (e : pit_entry) : Prop :=
  from_log l (pe_interest e) /\ forall r, r ∈ pe_in e -> from_log l (ir_interest r).
Record Hist (s : fw) : Prop := {
  hi_stored : forall k e, pit_at (fw_t s) k = Some e -> stored_from (fw_log s) e;
  hi_sent : sourced (fw_log s);
  hi_cnt : counted (fw_log s) (fw_cnt s);
}.
Lemma from_log_cons x l j : from_log l j -> from_log (x :: l) j.
Proof. intros (g & i & H & ?). exists g, i. split; [by right|done]. Qed.
Lemma stored_cons x l e : stored_from l e -> stored_from (x :: l) e.
Proof. intros [H1 H2]. split; [by apply from_log_cons|]. intros r Hr. by apply from_log_cons, H2. Qed.
Lemma stored_like l e e' : like e e' -> stored_from l e -> stored_from l e'.
Proof.
  intros [H1 H2 _ _ _] [E1 E2]. split; [by rewrite H1|]. intros r' (r & Hr & _ & Hi)%(like_in_elem _ _ _ H2). rewrite Hi. by apply E2.
Qed.
Lemma stored_sub l e e' : pe_interest e' = pe_interest e -> (forall r, r ∈ pe_in e' -> r ∈ pe_in e) -> stored_from l e -> stored_from l e'.
Proof. intros H1 H2 [E1 E2]. split; [by rewrite H1|]. auto. Qed.
Lemma one_hop_derived i j j' : one_hop i j -> derived j j' -> one_hop i j'.
Proof. intros [H1 H2] [D1 D2 _ _ _]. split; [congruence|]. by rewrite D2. Qed.


Lemma inc64_count n : inc64 (N.of_nat n mod 2 ^ 64) = (N.of_nat (S n) mod 2 ^ 64)%N.
Proof. unfold inc64, U64. rewrite N.add_mod_idemp_l by done. f_equal. lia. Qed.
Ltac counted := intros (H1 & H2 & H3 & H4 & H5 & H6); unfold counted, count_io in *; simpl in *; rewrite ?H1, ?H2, ?H3, ?H4, ?H5, ?H6;
  split; [try apply inc64_count; done|]; split; [try apply inc64_count; done|]; split; [try apply inc64_count; done|];
  split; [try apply inc64_count; done|]; split; [try apply inc64_count; done|]; try apply inc64_count; done.
Lemma counted_rx_interest f i l c : counted l c -> counted (Rx_interest f i :: l) (inc_in_interests c).
Proof. counted. Qed.
Lemma counted_rx_data f d l c : counted l c -> counted (Rx_data f d :: l) (inc_in_data c).
Proof. counted. Qed.
Lemma counted_rx_nack f i r l c : counted l c -> counted (Rx_nack f i r :: l) (inc_in_nacks c).
Proof. counted. Qed.
Lemma counted_tx_interest f i l c : counted l c -> counted (Tx_interest f i :: l) (inc_out_interests c).
Proof. counted. Qed.
Lemma counted_tx_data f d t l c : counted l c -> counted (Tx_data f d t :: l) (inc_out_data c).
Proof. counted. Qed.
Lemma counted_tx_nack f i r l c : counted l c -> counted (Tx_nack f i r :: l) (inc_out_nacks c).
Proof. counted. Qed.

Lemma sourced_other x l : (forall f j, x <> Tx_interest f j) -> sourced l -> sourced (x :: l).
Proof.
  intros Hx H l1 f j l2 E. destruct l1 as [|y l1]; injection E as -> E; [by destruct (Hx f j)|]. by eapply H.
Qed.
Lemma sourced_tx f j l : from_log l j -> sourced l -> sourced (Tx_interest f j :: l).
Proof. intros Hx H l1 f' j' l2 E. destruct l1 as [|y l1]; injection E as E1 E; [by subst|]. by eapply H. Qed.

Lemma Hist_intro x s s' : Hist s -> fw_log s' = x ++ fw_log s ->
  (forall k e', pit_at (fw_t s') k = Some e' -> pit_at (fw_t s) k = Some e' \/ stored_from (fw_log s) e' \/ stored_from (fw_log s') e') ->
  sourced (fw_log s') -> counted (fw_log s') (fw_cnt s') -> Hist s'.
Proof.
  intros [H1 H2 H3] Hl Hp Hs Hc. split; [|done..].
  assert (Hx : forall e, stored_from (fw_log s) e -> stored_from (fw_log s') e) by (rewrite Hl; clear; induction x; simpl; auto using stored_cons).
  intros k e' [H|[H|H]]%Hp; [|by apply Hx|done]. by apply Hx, (H1 k).
Qed.
(** nothing sent *)
Lemma Hist_silent s s' : Hist s -> fw_log s' = fw_log s -> fw_cnt s' = fw_cnt s ->
  (forall k e', pit_at (fw_t s') k = Some e' -> pit_at (fw_t s) k = Some e' \/ stored_from (fw_log s) e') -> Hist s'.
Proof.
  intros H Hl Hc Hp. apply (Hist_intro [] s); [done|done| |rewrite Hl; apply H|rewrite Hl, Hc; apply H].
  intros k e' [?|?]%Hp; auto.
Qed.
Lemma Hist_wrote k e e' s s' : Hist s -> wrote k e e' s s' -> stored_from (fw_log s) e' -> Hist s'.
Proof.
  intros H [W1 W2 [W3 W3'] W4 W5 W6] Hs. apply (Hist_silent s); [done..|]. intros k0 e0. rewrite W3'. case_decide; [|by left]. intros [= <-]. by right.
Qed.
Lemma entry_stored k e s : Hist s -> pit_at (fw_t s) k = Some e -> stored_from (fw_log s) e.
Proof. intros H He. by eapply hi_stored. Qed.

Lemma satom_hist trig k a s s' : Hist s -> (forall i, trig = Some i -> from_log (fw_log s) i) -> satom trig k a s s' -> Hist s'.
Proof.
  intros H Ht Ha.
  assert (Hgo : forall x e e', entry_to k e e' s s' -> fw_log s' = x ++ fw_log s -> stored_from (fw_log s) e' ->
    sourced (fw_log s') -> counted (fw_log s') (fw_cnt s') -> Hist s').
  { intros x e e' [E1 E2] Hl Hs Hx Hc. apply (Hist_intro x s); [done|done| |done|done]. intros k0 e0. rewrite E2. case_decide; [|by left]. intros [= <-]. right. by left. }
  destruct Ha as [? C T E Hn Hl Hc|e e' ? C T E L Hn Htm Hl Hc|e e' ms ? C T E L Hn Htm Hl Hc|e i j src nonce nd f fc ? C T Hs Hd Hj Hf Hh E Hn Hl Hc|src nonce nd f ? C E Hl Hc
    |e r d f0 f fc ? C T Hr Hm Hf Hlo E Hn Hl Hc|e r d f0 f fc ? C T Hr Hm Hf Hlo Hlo' E Hn Hl Hc|e r f fc reason ? C T Hr Hf Hlo E Hn Hl Hc].
  - apply (Hist_silent s); [done..|]. intros k0 e0. rewrite E. by left.
  - apply (Hgo [] e e'); [done|done| |rewrite Hl; apply H|rewrite Hl, Hc; apply H]. eapply stored_like; [exact L|]. by apply (entry_stored k), E.
  - apply (Hgo [] e e'); [done|done| |rewrite Hl; apply H|rewrite Hl, Hc; apply H]. eapply stored_like; [exact L|]. by apply (entry_stored k), E.
  - assert (He : stored_from (fw_log s) e) by (by apply (entry_stored k), E).
    apply (Hgo [Tx_interest f j] _ _ E Hl); [exact He| |rewrite Hl, Hc; apply counted_tx_interest, H].
    rewrite Hl. apply sourced_tx; [|apply H]. assert (Hi : from_log (fw_log s) i).
    { destruct src as [| |g]; simpl in Hs; [by apply Ht|injection Hs as <-; apply He|]. destruct (find_in g (pe_in e)) as [r|] eqn:Er; [|done]. injection Hs as <-.
      apply He. by apply find_in_Some in Er as [? _]. }
    destruct Hi as (g & i0 & Hi1 & Hi2). exists g, i0. split; [done|]. by eapply one_hop_derived.
  - apply (Hist_intro [] s); [done|done| |rewrite Hl; apply H|rewrite Hl, Hc; apply H]. intros k0 e0. rewrite E. by left.
  - apply (Hgo [Tx_data f d (i_token (ir_interest r))] _ _ E Hl); [|rewrite Hl; apply sourced_other; [done|apply H]|rewrite Hl, Hc; apply counted_tx_data, H].
    apply (stored_sub _ e); [done|simpl; intros r'; apply delete_in_elem|]. by apply (entry_stored k), E.
  - apply (Hgo [] _ _ E Hl); [|rewrite Hl; apply H|rewrite Hl, Hc; apply H].
    apply (stored_sub _ e); [done|simpl; intros r'; apply delete_in_elem|]. by apply (entry_stored k), E.
  - apply (Hgo [Tx_nack f (ir_interest r) reason] _ _ E Hl); [|rewrite Hl; apply sourced_other; [done|apply H]|rewrite Hl, Hc; apply counted_tx_nack, H].
    apply (stored_sub _ e); [done|simpl; intros r'; apply delete_in_elem|]. by apply (entry_stored k), E.
Qed.
Lemma satom_log trig k a s s' : satom trig k a s s' -> exists x, fw_log s' = x ++ fw_log s.
Proof.
  intros Ha. destruct Ha as [? C T E Hn Hl Hc|e e' ? C T E L Hn Htm Hl Hc|e e' ms ? C T E L Hn Htm Hl Hc|e i j src nonce nd f fc ? C T Hs Hd Hj Hf Hh E Hn Hl Hc|src nonce nd f ? C E Hl Hc
    |e r d f0 f fc ? C T Hr Hm Hf Hlo E Hn Hl Hc|e r d f0 f fc ? C T Hr Hm Hf Hlo Hlo' E Hn Hl Hc|e r f fc reason ? C T Hr Hf Hlo E Hn Hl Hc]; rewrite Hl; first [by exists []|by eexists [_]].
Qed.
Lemma from_log_app x l j : from_log l j -> from_log (x ++ l) j.
Proof. intros H. induction x; simpl; auto using from_log_cons. Qed.
Lemma satoms_hist R K trig k s s' : Hist s -> (forall i, trig = Some i -> from_log (fw_log s) i) -> rtc (allowed R K trig k) s s' -> Hist s'.
Proof.
  intros H Ht Hr. induction Hr as [|s s1 s' (a & H1 & _) H2 IH]; [done|]. apply IH; [by eapply satom_hist|].
  intros i Hi. destruct (satom_log _ _ _ _ _ H1) as [x ->]. by apply from_log_app, Ht.
Qed.
Lemma mstep_hist s s' : Hist s -> mstep s s' -> Hist s'.
Proof.
  intros H [k a Ha|[E1 E2 E3 E4 E5 E6 E7 E8]]; [eapply satom_hist; [exact H| |exact Ha]; done|]. apply (Hist_silent s); [done..|].
  intros k e' He'. specialize (E4 k). rewrite He' in E4. inversion E4 as [e e0 [L _] He|]; subst. right. eapply stored_like; [exact L|]. eapply hi_stored; [done|by symmetry].
Qed.
Lemma msteps_hist s s' : Hist s -> rtc mstep s s' -> Hist s'.
Proof. intros H Hr. induction Hr; [done|]. eauto using mstep_hist. Qed.

Lemma hist_got x g s : Hist s -> (forall f j, x <> Tx_interest f j) -> (counted (fw_log s) (fw_cnt s) -> counted (x :: fw_log s) (g (fw_cnt s))) -> Hist (got x g s).
Proof.
  intros H Hx Hc. apply (Hist_intro [x] s); [done|done|by left| |by apply Hc, H]. simpl. by apply sourced_other, H.
Qed.

(** the Interest that is kept in the PIT *)
Lemma one_hop_dec i : ~ hop_zero i -> one_hop i (dec_hop i).
Proof.
  unfold hop_zero, one_hop, dec_hop. intros Hz. destruct (i_hop i) as [h|] eqn:E; [|by rewrite E]. split; [done|]. simpl. exists (h - 1)%N. split; [|done].
  assert (h <> 0)%N by congruence. lia.
Qed.
Lemma one_hop_strip r i j : one_hop i j -> one_hop i (strip_hint r j).
Proof. intros [H1 H2]. split; [by rewrite key_strip|]. unfold strip_hint. destruct (i_hint j); [done|]. by destruct (in_producer_region _ _). Qed.
Lemma one_hop_default s i j : one_hop i j -> one_hop i (with_default_hop s j).
Proof.
  intros [H1 H2]. unfold with_default_hop. destruct (add_hop s j) eqn:Ea; [|done]. split; [done|]. unfold add_hop in Ea.
  apply andb_prop in Ea as [Ea1 Ea2]. apply N.ltb_lt in Ea1. simpl. destruct (i_hop i) as [h|]; [destruct H2 as (h' & _ & H2); by rewrite H2 in Ea2|].
  intros [= H]. lia.
Qed.
Lemma stored_from_same l i e e' : stored_from l e -> from_log l i -> pe_interest e' = i \/ pe_interest e' = pe_interest e ->
  (forall r, r ∈ pe_in e' -> r ∈ pe_in e \/ ir_interest r = i) -> stored_from l e'.
Proof.
  intros [E1 E2] Hi Hp Hr. split; [by destruct Hp as [->| ->]|]. intros r [?| ->]%Hr; [by apply E2|done].
Qed.

Section hist.
  Variable sort_nexthops : list nexthop -> list nexthop.
  Variable create_strategy : name -> create_result.
  Variable same_type : name -> name -> bool.
  Variable make_entry : name -> N -> Dnl_Model.fingerprint.
  Variable rand : nat -> nat.
  Variable face_order : list N -> list N.
  Variable strategies : name -> strategy.
  Hypothesis W : world_ok sort_nexthops same_type face_order.
  Notation event_fn := (fw_event sort_nexthops create_strategy same_type make_entry rand face_order strategies).

  Lemma loop_out_hist i f s : Hist s -> Hist (loop_out strategies i f s).
  Proof. intros H. unfold loop_out. destruct (loop_nacks _ _ _ _); [|done]. apply hist_got; [done|done|apply counted_tx_nack]. Qed.

  Lemma interest_hist s f i s' fc : Inv s -> Hist s -> (0 <= i_lifetime i)%Z -> interest_case make_entry rand face_order strategies s f i fc s' -> Hist s'.
  Proof.
    intros I H Hlife Hc. assert (H0 : Hist (got (Rx_interest f i) inc_in_interests s)) by (apply hist_got; [done|done|apply counted_rx_interest]).
    destruct Hc as [_ ->|_ _ _ ->|Hz _ Hp]; [|done|].
    { apply (Hist_intro [] _ _ H0); [done|by left|apply H0|]. exact (hi_cnt _ H0). }
    destruct Hp as [_ ->|i2 e new s1 _ Hi2 Hins Hp]; [by apply loop_out_hist|].
    set (s0 := got _ _ s) in *. assert (Hfrom : from_log (fw_log s0) i2).
    { exists f, i. split; [by left|]. rewrite Hi2. by apply one_hop_strip, one_hop_dec. }
    assert (Hle : stored_from (fw_log s0) e).
    { rewrite (ins_e _ _ _ _ _ Hins). destruct (pit_at (fw_t s0) (key_of i2)) as [e0|] eqn:E0; [exact (entry_stored _ _ _ H0 E0)|]. split; [done|]. intros r Hr. by apply elem_of_nil in Hr. }
    assert (H1 : Hist s1).
    { apply (Hist_silent s0); [done|apply Hins|apply Hins|]. intros k e0. rewrite (ins_pits _ _ _ _ _ Hins). case_decide; [|by left]. intros [= <-]. by right. }
    assert (Hl1 : fw_log s1 = fw_log s0) by apply Hins.
    destruct Hp as [_ ->|c d _ Hin Hcs I2 Hhit|s2 e3 s3 _ Hncs I2 Hm Hfw]; [by apply loop_out_hist|..].
    - destruct Hhit as [(sc & Hw & ->) _]. assert (Hsc : Hist sc).
      { assert (H2 : Hist (set_cnt (inc_cs_hits (fw_cnt (set_cs c s1))) (set_cs c s1))).
        { apply (Hist_intro [] s1); [done|done|by left|apply H1|apply (hi_cnt _ H1)]. }
        eapply Hist_wrote; [exact H2|exact Hw|]. simpl. rewrite Hl1. exact Hle. }
      destruct (_ || _); [|done]. apply hist_got; [done|done|apply counted_tx_data].
    - assert (Hs2 : fw_t s2 = fw_t s1 /\ fw_log s2 = fw_log s1 /\ fw_cnt s2 = fw_cnt s1) by (by destruct Hncs as [[_ ->]|(_ & c & _ & ->)]).
      destruct Hs2 as (Ht2 & Hl2 & Hc2). assert (H2 : Hist (set_cnt (inc_cs_misses (fw_cnt s2)) s2)).
      { apply (Hist_intro [] s1); [done|exact Hl2| |simpl; rewrite Hl2; apply H1|simpl; rewrite Hl2, Hc2; apply (hi_cnt _ H1)]. simpl. rewrite Ht2. by left. }
      set (i3 := with_default_hop s2 i2) in *.
      assert (Hf3 : from_log (fw_log s2) i3).
      { rewrite Hl2, Hl1. exists f, i. split; [by left|]. apply one_hop_default. rewrite Hi2. by apply one_hop_strip, one_hop_dec. }
      pose proof Hm as [Hw Hi3 Hpi Hin Hout _ _ _ _]. assert (H3 : Hist s3).
      { eapply Hist_wrote; [exact H2|exact Hw|]. simpl. apply (stored_from_same _ i3 e); [rewrite Hl2, Hl1; exact Hle|exact Hf3| |].
        - rewrite Hpi. destruct (add_hop s2 i2 && new) eqn:Ea; [|by right]. apply andb_prop in Ea as [Ea ->]. left. unfold i3, with_default_hop. rewrite Ea.
          f_equal. pose proof (ins_new _ _ _ _ _ Hins) as Hn. rewrite (ins_e _ _ _ _ _ Hins). by destruct (pit_at (fw_t s0) (key_of i2)).
        - rewrite Hin. intros r [?|[_ ?]]%insert_in_elem; auto. }
      eapply (satoms_hist _ _ (Some i3)); [exact H3| |].
      + intros j [= <-]. rewrite (wr_log _ _ _ _ _ Hw). exact Hf3.
      + assert (Hr : rtc (anyk (Some i3) (key_of i2)) s3 s'); [|exact Hr]. eapply forwards_satoms; [exact W|exact (wr_inv _ _ _ _ _ Hw)| |exact Hfw].
        assert (Hl : (0 <= i_lifetime i2)%Z).
        { rewrite Hi2. unfold strip_hint, dec_hop. destruct (i_hop i); simpl; destruct (i_hint i); try done; by destruct (in_producer_region _ _). }
        unfold i3, with_default_hop. by destruct (add_hop s2 i2).
  Qed.

  Lemma finished_hist d f k clear s s' : Inv s -> Hist s -> finished make_entry rand d f k clear s s' -> Hist s'.
  Proof.
    intros I H (e & s1 & s2 & W1 & H2 & W2). destruct (wrote_at _ _ _ _ _ W1) as [He _].
    assert (Hs : stored_from (fw_log s) e) by (by eapply entry_stored). assert (H1 : Hist s1) by (eapply Hist_wrote; [exact H|exact W1|done]).
    apply dnl_step in H2 as (dn & n & ->).
    assert (H2 : Hist (set_dnl dn (set_rand n s1))) by (apply (Hist_silent s1); [done|done|done|by left]).
    eapply Hist_wrote; [exact H2|exact W2|]. simpl. rewrite (wr_log _ _ _ _ _ W1). apply (stored_sub _ e); [by destruct clear| |done].
    destruct clear; simpl; [intros r Hr; by apply elem_of_nil in Hr|done].
  Qed.
  Lemma run_hist k p s s' : Inv s -> Hist s -> run rand face_order None k p s = Some (s', tt) -> Hist s' /\ Inv s'.
  Proof.
    intros I H Hr. assert (Hx : rtc (anyk None k) s s') by (eapply run_satoms; [exact (wo_order _ _ _ W)|done|done|exact Hr]).
    split; [eapply satoms_hist; [exact H| |exact Hx]; done|by eapply satoms_inv].
  Qed.
  Lemma inserted_data_hist d u s s' : Hist s -> inserted_data d u s s' -> Hist s' /\ Inv s'.
  Proof. intros H (c & _ & -> & I). split; [|done]. apply (Hist_silent s); [done|done|done|by left]. Qed.
  Lemma received_msteps d f k s s' : Inv s -> received rand face_order strategies d f k s s' -> rtc mstep s s'.
  Proof.
    intros I (p & inst & _ & H). unfold after_receive_data in H. destruct (st_data (strategies inst)) as [q|].
    - eapply satoms_msteps. eapply run_satoms; [exact (wo_order _ _ _ W)|done|done|exact H].
    - apply bind_Some in H as (s1 & v & H1 & H). assert (Hr : rtc (anyk None k) s s1) by (eapply run_satoms; [exact (wo_order _ _ _ W)|done|done|exact H1]).
      etrans; [by eapply satoms_msteps|]. assert (I1 : Inv s1) by (by eapply satoms_inv).
      destruct (a_data_all _ (wo_order _ _ _ W) None _ _ _ _ _ _ I1 H) as (e & _ & Ha & _). clear -Ha. induction Ha; [done|]. econstructor; [by eapply mt_atom|done].
  Qed.
  Lemma sat_loop_hist d f ks s s' : Inv s -> Hist s -> sat_loop make_entry rand face_order strategies d f ks s s' -> Hist s'.
  Proof.
    intros I H Hl. induction Hl as [|k ks e p inst s s1 s2 s3 s4 W1 He Hr Hf Hs IH]; [done|]. destruct (wrote_at _ _ _ _ _ W1) as [He0 _].
    assert (H1 : Hist s1) by (eapply Hist_wrote; [exact H|exact W1|]; by apply (entry_stored k) in He0).
    destruct (run_hist _ _ _ _ (wr_inv _ _ _ _ _ W1) H1 Hr) as [H2 I2]. apply IH; [by eapply finished_spec|by eapply finished_hist].
  Qed.
  Lemma out_data_one d tok g s s' : (bind (on_outgoing_data d tok g) (fun _ => ret tt)) s = Some (s', tt) ->
    s' = s \/ (exists fc, fw_faces s !! g = Some fc /\ (is_localhost (d_name d) = true -> fc_local fc = true) /\ s' = got (Tx_data g d tok) inc_out_data s).
  Proof.
    intros (s1 & b & H & [= <-])%bind_Some. unfold on_outgoing_data in H. apply bind_Some in H as (s0 & s2 & [= <- <-] & H).
    destruct (fw_faces s !! g) as [fc|] eqn:E; [|injection H as <- <-; by left].
    destruct (negb (fc_local fc) && is_localhost (d_name d)) eqn:Es; [injection H as <- <-; by left|].
    apply bind_Some in H as (s2 & v & [= <- <-] & H). apply bind_Some in H as (s2 & v & [= <- <-] & H). injection H as <- <-. right. exists fc. split; [done|]. split; [|done].
    intros Hl. rewrite Hl in Es. by destruct (fc_local fc).
  Qed.
  Lemma each_out_hist d l s s' : Hist s -> each l (fun g => bind (on_outgoing_data d None g) (fun _ => ret tt)) s = Some (s', tt) -> Hist s'.
  Proof.
    revert s. induction l as [|g l IH]; intros s H Hr; simpl in Hr; [by injection Hr as <-|].
    apply bind_Some in Hr as (s1 & [] & H1 & Hr). eapply IH; [|exact Hr]. apply out_data_one in H1 as [->|(fc & _ & _ & ->)]; [done|].
    apply hist_got; [done|done|apply counted_tx_data].
  Qed.

  Lemma data_hist s f d s' fc : Inv s -> Hist s -> data_case make_entry rand face_order strategies s f d fc s' -> Hist s'.
  Proof.
    intros I H Hc. assert (H0 : Hist (got (Rx_data f d) inc_in_data s)) by (apply hist_got; [done|done|apply counted_rx_data]).
    assert (I0 : Inv (got (Rx_data f d) inc_in_data s)) by (by apply Inv_got).
    destruct Hc as [_ _ ->|_ _ Hu|k e s1 s2 s3 _ He _ Hi W2 Hr Hf|ks s1 s2 pend _ Hn _ _ Hi Hl _ _ Hs]; [done|..].
    - cbv zeta in Hu. set (s1 := set_cnt _ _) in Hu. assert (H1 : Hist s1) by (apply (Hist_intro [] _ _ H0); [done|by left|apply H0|apply (hi_cnt _ H0)]).
      destruct (unsol_decide _ _); [by eapply inserted_data_hist|by subst].
    - destruct (inserted_data_hist _ _ _ _ H0 Hi) as [H1 I1]. destruct (wrote_at _ _ _ _ _ W2) as [He1 _].
      assert (H2 : Hist s2) by (eapply Hist_wrote; [exact H1|exact W2|]; by apply (entry_stored k) in He1).
      apply received_msteps in Hr; [|exact (wr_inv _ _ _ _ _ W2)]. eapply finished_hist; [| |exact Hf]; [eapply msteps_inv; [exact (wr_inv _ _ _ _ _ W2)|exact Hr]|by eapply msteps_hist].
    - destruct (inserted_data_hist _ _ _ _ H0 Hi) as [H1 I1]. eapply each_out_hist; [|exact Hs]. by eapply sat_loop_hist.
  Qed.
  Lemma nack_hist s f i r s' fc : Inv s -> Hist s -> nack_case rand face_order strategies s f i r fc s' -> Hist s'.
  Proof.
    intros I H Hc. assert (H0 : Hist (got (Rx_nack f i r) inc_in_nacks s)) by (apply hist_got; [done|done|apply counted_rx_nack]).
    destruct Hc as [_ ->|e rec s1 s2 p inst _ He _ _ W1 H2 _ Hr]; [done|].
    assert (H1 : Hist s1) by (eapply Hist_wrote; [exact H0|exact W1|]; apply (stored_sub _ e); [done|done|]; by apply stored_cons, (entry_stored (key_of i))).
    assert (Hx : Hist s2 /\ Inv s2).
    { destruct (has_pending_out _ _); [subst; split; [done|apply W1]|]. split; [|apply H2]. eapply Hist_wrote; [exact H1|exact H2|].
      destruct (wrote_at _ _ _ _ _ W1) as [_ He1]. by apply (entry_stored (key_of i)) in He1. }
    destruct Hx as [H3 I3]. by eapply run_hist.
  Qed.

  Lemma event_hist s ev s' : Inv s -> Hist s -> ev_ok s ev -> event_fn ev s = Some (s', tt) -> Hist s'.
  Proof.
    intros I H Ho He.
    assert (Hp : plain ev \/ ~ plain ev) by (destruct ev; ((left; done) || (right; by intros []))). destruct Hp as [Hp|Hp].
    { eapply msteps_hist; [exact H|]. by eapply other_cases. }
    destruct ev as [f i|f d|f i r|k|inst arg k|p f c|p f|p req|p|fc|fc id|f|l|p|h|o| | |d]; try (by destruct Hp).
    - pose proof Ho as (_ & Hl & _). eapply interest_cases in He as (fc & _ & Hc); [|done|done]. by eapply interest_hist.
    - eapply data_cases in He as (fc & _ & Hc); [|exact W|done|done]. by eapply data_hist.
    - eapply nack_cases in He as (fc & _ & Hc); [|done]. by eapply nack_hist.
    - apply timer_case in He as [e [Z1 Z2 Z3 Z4 Z5 Z6 Z7 Z8 _]]; [|done]. apply (Hist_intro [] s); [done|done| |rewrite Z7; apply H|].
      + intros k' e'. rewrite Z5. case_decide; [done|by left].
      + rewrite Z7, Z8. destruct (pe_satisfied e); exact (hi_cnt _ H).
    - eapply face_remove_case in He as [[U1 [T ->] U3 U4 U5 U6 U7 U8] _]; [|exact create_strategy|exact W|done]. apply (Hist_silent s); [done|done|done|].
      intros k e'. rewrite U3. destruct (pit_at (fw_t s) k) as [e|] eqn:E; [|done]. intros [= <-]. right.
      apply (stored_sub _ e); [done|simpl; intros r; apply delete_in_elem|]. by eapply entry_stored.
  Qed.

  Lemma event_inv s ev s' : Inv s -> ev_ok s ev -> event_fn ev s = Some (s', tt) -> Inv s'.
  Proof.
    intros I Ho He.
    assert (Hp : plain ev \/ ~ plain ev) by (destruct ev; ((left; done) || (right; by intros []))). destruct Hp as [Hp|Hp].
    { eapply msteps_inv; [exact I|]. by eapply other_cases. }
    destruct ev as [f i|f d|f i r|k|inst arg k|p f c|p f|p req|p|fc|fc id|f|l|p|h|o| | |d]; try (by destruct Hp).
    - pose proof Ho as (_ & Hl & _). eapply interest_cases in He as (fc & _ & Hc); [|done|done].
      assert (Hlo : forall j g s0, Inv s0 -> Inv (loop_out strategies j g s0)).
      { intros j g s0 I0. unfold loop_out. destruct (loop_nacks _ _ _ _); [|done]. by apply Inv_got. }
      assert (I0 : Inv (got (Rx_interest f i) inc_in_interests s)) by (by apply Inv_got).
      destruct Hc as [_ ->|_ _ _ ->|Hz _ Hp']; [by apply Inv_cnt, (Inv_log _ s)|done|].
      destruct Hp' as [_ ->|i2 e new s1 _ Hi2 Hins Hp']; [by apply Hlo|].
      destruct Hp' as [_ ->|c d _ Hin Hcs I2 Hhit|s2 e3 s3 _ Hncs I2 Hm Hfw]; [apply Hlo, Hins|..].
      + destruct Hhit as [(sc & Hw & ->) _]. destruct (_ || _); [apply Inv_got|]; apply Hw.
      + assert (Hr : rtc (anyk (Some (with_default_hop s2 i2)) (key_of i2)) s3 s').
        { eapply forwards_satoms; [exact W|apply Hm| |exact Hfw]. assert (Hl2 : (0 <= i_lifetime i2)%Z).
          { rewrite Hi2. unfold strip_hint, dec_hop. destruct (i_hop i); simpl; destruct (i_hint i); try done; by destruct (in_producer_region _ _). }
          unfold with_default_hop. by destruct (add_hop s2 i2). }
        eapply satoms_inv; [apply Hm|exact Hr].
    - eapply data_cases in He as (fc & _ & Hc); [|exact W|done|done].
      assert (I0 : Inv (got (Rx_data f d) inc_in_data s)) by (by apply Inv_got).
      destruct Hc as [_ _ ->|_ _ Hu|k e s1 s2 s3 _ He _ Hi W2 Hr Hf|ks s1 s2 pend _ Hn _ _ Hi Hl _ _ Hs]; [done|..].
      + cbv zeta in Hu. set (s1 := set_cnt _ _) in Hu. assert (I1 : Inv s1) by (by apply Inv_cnt, (Inv_log _ s)).
        destruct (unsol_decide _ _); [by destruct Hu as (c & _ & _ & ?)|by subst].
      + eapply finished_spec; exact Hf.
      + destruct Hi as (c & _ & _ & I1). eapply sat_loop_spec in Hl as (I2 & _); [|exact W|done|done].
        set (l := List.filter (not_back (fw_faces s2) f) (face_order pend)) in Hs. clearbody l. clear -I2 Hs. revert s2 I2 Hs.
        induction l as [|g l IH]; intros s2 I2 Hr; simpl in Hr; [by injection Hr as <-|].
        apply bind_Some in Hr as (s3 & [] & H1 & Hr). eapply IH; [|exact Hr]. apply out_data_one in H1 as [->|(fc & _ & _ & ->)]; [done|]. by apply Inv_got.
    - eapply nack_cases in He as (fc & _ & Hc); [|done]. destruct Hc as [_ ->|e rec s1 s2 p inst _ He _ _ W1 H2 _ Hr]; [by apply Inv_got|].
      assert (I2 : Inv s2) by (destruct (has_pending_out _ _); [subst; apply W1|apply H2]).
      assert (Hx : rtc (anyk None (key_of i)) s2 s') by (eapply run_satoms; [exact (wo_order _ _ _ W)|done|done|exact Hr]). by eapply satoms_inv.
    - apply timer_case in He as [e Hz]; [|done]. apply Hz.
    - eapply face_remove_case in He as [Hu _]; [|exact create_strategy|exact W|done]. apply Hu.
  Qed.

  Lemma new_inv def limit s : fw_new create_strategy def limit = Some s -> Inv s /\ Hist s /\ fw_log s = [] /\ (forall k, pit_at (fw_t s) k = None).
  Proof.
    unfold fw_new. intros H. destruct (sc_set_default create_strategy def new_tables) as [T|] eqn:E; [|done]. destruct (Dnl_Model.dnl_new _) as [dn|]; [|done]. injection H as <-.
    assert (It : tab_inv new_tables) by apply tab_inv_new.
    assert (Hcr : exists x, create_strategy def = Created x) by (unfold sc_set_default in E; destruct (create_strategy def); [by eexists|done|done]). destruct Hcr as [x Hx].
    destruct (sc_default_ok create_strategy same_type (wo_type _ _ _ W) def x new_tables (ti_tree _ It) (ti_sc _ It) Hx) as (T' & E' & H1 & H2 & H3 & H4); [done|].
    rewrite E in E'. injection E' as <-.
    assert (It' : tab_inv T).
    { destruct (step_ok sort_nexthops create_strategy same_type (wo_sort _ _ _ W) (wo_type _ _ _ W) new_tables (OScDefault def) It) as (T' & HT & IT).
      - split; [done|by eexists].
      - simpl in HT. rewrite E in HT. by injection HT as <-. }
    assert (Hpit : forall k, pit_at T k = None) by (intros k; rewrite pit_at_att, H3; by case_decide).
    assert (Hfib : forall n, fib_at T n = None) by (intros n; rewrite fib_at_att, H3; by case_decide).
    split; [|split; [|done]].
    - split; simpl; try done.
      + rewrite sc_at_att, H3, decide_True by done. by eexists.
      + intros k e. by rewrite Hpit.
      + intros n fe. by rewrite Hfib.
      + intros f. rewrite lookup_empty. by intros [].
      + exists limit. exists [], []. done.
    - split; simpl; try done.
      + intros k e. by rewrite Hpit.
      + intros l1 f j l2 Hl. by destruct l1.
  Qed.

  Notation reachable := (fw_reachable sort_nexthops create_strategy same_type make_entry rand face_order strategies).
  Notation step := (fw_step sort_nexthops create_strategy same_type make_entry rand face_order strategies).
  Lemma step_event s ev s' : step s ev = Some s' -> event_fn ev s = Some (s', tt).
  Proof. unfold fw_step. destruct (event_fn ev s) as [[s1 []]|]; [|done]. by intros [= ->]. Qed.
  Theorem reachable_inv s : reachable s -> Inv s /\ Hist s.
  Proof.
    induction 1 as [def limit s H|s ev s' Hr [IH1 IH2] Ho Hs].
    - destruct (new_inv _ _ _ H) as (H1 & H2 & _). done.
    - apply step_event in Hs. split; [by eapply event_inv|by eapply event_hist].
  Qed.
End hist.
