(** Invariants of whole histories, continued: pending Interests and timers *)
From stdpp Require Import gmap.
From Verif Require Import Lib Name_Model Name_Proof Packet_Model Nt_Model Nt_Spec Nt_Tree Tree_Model Tree_Proof Tab_Model Tab_Spec Tab_At Tab_Fib Tab_Pit Tab_Pit2 Tab_Meas Tab_Sc Tab_Clean Tab_Run Tab_Main Fw_Model Fw_Spec Fw_Inv Fw_Case Fw_Case2 Fw_Case3 Fw_Hist.
From Verif Require Cs_Model Cs_Spec Cs_Main Cs_Run Dnl_Model.

(** * Pending Interests *)
Definition Acc (P : pending_set) (s : fw) : Prop :=
  accounted (fw_log s) P /\ forall k e r, pit_at (fw_t s) k = Some e -> r ∈ pe_in e -> P (fr_face (ir_rec r)) k.

Lemma acc_silent P s s' : Acc P s -> fw_log s' = fw_log s ->
  (forall k e' r', pit_at (fw_t s') k = Some e' -> r' ∈ pe_in e' -> exists e r, pit_at (fw_t s) k = Some e /\ r ∈ pe_in e /\ fr_face (ir_rec r) = fr_face (ir_rec r')) -> Acc P s'.
Proof.
  intros [H1 H2] Hl Hp. split; [by rewrite Hl|]. intros k e' r' He' Hr'. destruct (Hp k e' r' He' Hr') as (e & r & He & Hr & <-). by eapply H2.
Qed.
Lemma acc_entry_to P k e e' s s' : Acc P s -> entry_to k e e' s s' -> fw_log s' = fw_log s ->
  (forall r', r' ∈ pe_in e' -> exists r, r ∈ pe_in e /\ fr_face (ir_rec r) = fr_face (ir_rec r')) -> Acc P s'.
Proof.
  intros H [E1 E2] Hl Hr. eapply acc_silent; [exact H|done|]. intros k0 e0 r0. rewrite E2. case_decide as Ek.
  - intros [= <-] (r & Hr1 & Hr2)%Hr. subst. by exists e, r.
  - intros ??. by exists e0, r0.
Qed.
Lemma satisfies_key e d k : pe_key e = k -> matches_data (pe_interest e) d = true -> satisfies k d.
Proof. intros <-. unfold satisfies, pe_key, key_of. simpl. by destruct (pe_interest e). Qed.
Lemma like_in_face e e' : like e e' -> forall r', r' ∈ pe_in e' -> exists r, r ∈ pe_in e /\ fr_face (ir_rec r) = fr_face (ir_rec r').
Proof. intros [_ H _ _ _] r' (r & Hr & (Hf & _) & _)%(like_in_elem _ _ _ H). by exists r. Qed.
Lemma key_in_record e k s r : Inv s -> pit_at (fw_t s) k = Some e -> r ∈ pe_in e -> key_of (ir_interest r) = k.
Proof.
  intros I He Hr. destruct (entry_ok _ _ _ I He) as [[_ _ E3 _] Hk]. rewrite <- Hk. apply (E3 r Hr).
Qed.

(** an answer to an in-record *)
Lemma acc_answer (P : pending_set) k e r f x s s' : Inv s -> Acc P s -> find_in f (pe_in e) = Some r ->
  entry_to k e (set_pe_in (delete_in f (pe_in e)) e) s s' -> fw_log s' = x :: fw_log s ->
  (accounted (fw_log s) P -> P f k -> accounted (x :: fw_log s) (fun g k' => P g k' /\ ~ (g = f /\ k' = k))) ->
  Acc (fun g k' => P g k' /\ ~ (g = f /\ k' = k)) s'.
Proof.
  intros I [A1 A2] Hr [E1 E2] Hl Hx. apply find_in_Some in Hr as [Hr Hf]. split.
  - rewrite Hl. apply Hx; [done|]. rewrite <- Hf. by eapply A2.
  - intros k0 e0 r0. rewrite E2. case_decide as Ek.
    + intros [= <-] Hr0. simpl in Hr0. destruct (entry_ok _ _ _ I E1) as [[N1 _ _ _] _]. subst k0. split; [eapply A2; [exact E1|by eapply delete_in_elem]|].
      intros [Hg _]. by apply (delete_in_gone f _ r0 N1 Hr0).
    + intros He0 Hr0. split; [by eapply A2|]. by intros [_ ?].
Qed.
Lemma satom_acc P trig k a s s' : Inv s -> Acc P s -> satom trig k a s s' -> exists P', Acc P' s'.
Proof.
  intros I H Ha.
  destruct Ha as [? C T E Hn Hl Hc|e e' ? C T E L Hn Htm Hl Hc|e e' ms ? C T E L Hn Htm Hl Hc|e i j src nonce nd f fc ? C T Hs Hd Hj Hf Hh E Hn Hl Hc|src nonce nd f ? C E Hl Hc
    |e r d f0 f fc ? C T Hr Hm Hf Hlo E Hn Hl Hc|e r d f0 f fc ? C T Hr Hm Hf Hlo Hlo' E Hn Hl Hc|e r f fc reason ? C T Hr Hf Hlo E Hn Hl Hc].
  - exists P. eapply acc_silent; [exact H|done|]. intros k0 e0 r0. rewrite E. intros. by exists e0, r0.
  - exists P. eapply acc_entry_to; [exact H|exact E|done|by apply like_in_face].
  - exists P. eapply acc_entry_to; [exact H|exact E|done|by apply like_in_face].
  - exists P. destruct H as [A1 A2], E as [E1 E2]. split; [rewrite Hl; by constructor|]. intros k0 e0 r0. rewrite E2. case_decide; [|apply A2].
    intros [= <-] Hr0. subst. by eapply A2.
  - exists P. eapply acc_silent; [exact H|done|]. intros k0 e0 r0. rewrite E. intros. by exists e0, r0.
  - eexists. eapply (acc_answer _ _ _ _ f); [done|exact H|exact Hr|exact E|exact Hl|]. intros Ha Hp. eapply acc_tx_data; [done|done|].
    eapply satisfies_key; [|exact Hm]. by eapply (entry_ok s), E.
  - exists P. eapply acc_entry_to; [exact H|exact E|done|]. intros r' Hr'. exists r'. split; [simpl in Hr'; by eapply delete_in_elem|done].
  - eexists. eapply (acc_answer _ _ _ _ f); [done|exact H|exact Hr|exact E|exact Hl|]. intros Ha Hp.
    apply find_in_Some in Hr as [Hr _]. pose proof (key_in_record _ _ _ _ I (proj1 E) Hr) as <-. by apply acc_tx_nack.
Qed.
Lemma satoms_acc P R K trig k s s' : Inv s -> Acc P s -> rtc (allowed R K trig k) s s' -> exists P', Acc P' s'.
Proof.
  intros I H Hr. revert P H. induction Hr as [|s s1 s' (a & H1 & _) H2 IH]; intros P H; [by exists P|].
  destruct (satom_acc _ _ _ _ _ _ I H H1) as [P' H']. eapply IH; [by eapply satom_inv|exact H'].
Qed.
Lemma msteps_acc P s s' : Inv s -> Acc P s -> rtc mstep s s' -> exists P', Acc P' s'.
Proof.
  intros I H Hr. revert P H. induction Hr as [|s s1 s' H1 H2 IH]; intros P H; [by exists P|]. destruct H1 as [k a Ha|E].
  - destruct (satom_acc _ _ _ _ _ _ I H Ha) as [P' H']. eapply IH; [by eapply satom_inv|exact H'].
  - apply (IH (en_inv _ _ E) P). eapply acc_silent; [exact H|apply E|]. intros k e' r' He' Hr'. pose proof (en_pits _ _ E k) as Hx. rewrite He' in Hx.
    inversion Hx as [e e0 [L _] He|]; subst. destruct (like_in_face _ _ L r' Hr') as (r & Hr & Hf). exists e, r. by split.
Qed.
Lemma acc_wrote P k e e' s s' : Acc P s -> wrote k e e' s s' ->
  (forall r', r' ∈ pe_in e' -> exists r, r ∈ pe_in e /\ fr_face (ir_rec r) = fr_face (ir_rec r')) -> Acc P s'.
Proof. intros H [W1 W2 W3 W4 W5 W6] Hr. by eapply acc_entry_to. Qed.
Lemma acc_same P s s' : Acc P s -> fw_log s' = fw_log s -> fw_t s' = fw_t s -> Acc P s'.
Proof. intros [H1 H2] Hl Ht. split; [by rewrite Hl|by rewrite Ht]. Qed.

(** * Timers *)
Definition Timed (s : fw) : Prop := forall k e, pit_at (fw_t s) k = Some e -> is_Some (pe_timer e).
Lemma timed_pits s s' : Timed s -> (forall k e', pit_at (fw_t s') k = Some e' -> is_Some (pe_timer e') \/ exists e, pit_at (fw_t s) k = Some e /\ pe_timer e' = pe_timer e) -> Timed s'.
Proof. intros H Hp k e' He'. destruct (Hp k e' He') as [?|(e & He & ->)]; [done|]. by apply (H k). Qed.
Lemma timed_same s s' : Timed s -> fw_t s' = fw_t s -> Timed s'.
Proof. intros H Ht k e. rewrite Ht. apply H. Qed.
Lemma timed_wrote k e e' s s' : Timed s -> wrote k e e' s s' -> (is_Some (pe_timer e) -> is_Some (pe_timer e')) -> Timed s'.
Proof.
  intros H Hw Ht k0 e0. destruct (wr_entry _ _ _ _ _ Hw) as [E1 E2]. rewrite E2. case_decide; [|apply H]. intros [= <-]. by apply Ht, (H k).
Qed.
Lemma timed_satoms R K trig k s s' : Inv s -> Timed s -> rtc (allowed R K trig k) s s' -> Timed s'.
Proof.
  intros I H Hr k0 e0 He0. destruct (satoms_entry _ _ _ _ _ _ I Hr) as (H1 & _ & H3). destruct (decide (k0 = k)) as [->|Hk]; [|rewrite H1 in He0 by done; by apply (H k0)].
  destruct (pit_at (fw_t s) k) as [e|] eqn:E.
  - destruct (H3 e eq_refl) as (e' & He' & Hth). rewrite He0 in He'. injection He' as <-. apply (th_timer _ _ Hth). by apply (H k).
  - exfalso. clear H3 H1. revert E. induction Hr as [|s s1 s' (a & Ha & _) H2 IH]; [congruence|]. intros E. assert (I1 : Inv s1) by (by eapply satom_inv).
    assert (E1 : pit_at (fw_t s1) k = None); [|apply IH; [done| |done|done]].
    + destruct Ha as [? C T Ep|e e' ? C T [Ep _]|e e' ms ? C T [Ep _]|e i j src nonce nd f fc ? C T Hs Hd Hj Hf Hh [Ep _]|src nonce nd f ? C Ep
        |e r d f0 f fc ? C T Hr' Hm Hf Hl [Ep _]|e r d f0 f fc ? C T Hr' Hm Hf Hl Hl' [Ep _]|e r f fc reason ? C T Hr' Hf Hl [Ep _]]; try congruence; by rewrite Ep.
    + intros k1 e1 Hk1. destruct (satom_entry _ _ _ _ _ I Ha) as (G1 & _ & _). destruct (decide (k1 = k)) as [->|]; [congruence|]. rewrite G1 in Hk1 by done. by apply (H k1).
Qed.
Lemma timed_msteps s s' : Inv s -> Timed s -> rtc mstep s s' -> Timed s'.
Proof.
  intros I H Hr. induction Hr as [|s s1 s' H1 H2 IH]; [done|]. destruct H1 as [k a Ha|E].
  - apply IH; [by eapply satom_inv|]. eapply (timed_satoms (fun _ => True) (fun _ _ => True)); [exact I|exact H|]. apply rtc_once. exists a. split; [exact Ha|by exists s].
  - apply IH; [apply E|]. intros k e' He'. pose proof (en_pits _ _ E k) as Hx. rewrite He' in Hx. inversion Hx as [e e0 [_ Ht] He|]; subst. rewrite Ht. eapply H. by symmetry.
Qed.

Section acc.
  Variable sort_nexthops : list nexthop -> list nexthop.
  Variable create_strategy : name -> create_result.
  Variable same_type : name -> name -> bool.
  Variable make_entry : name -> N -> Dnl_Model.fingerprint.
  Variable rand : nat -> nat.
  Variable face_order : list N -> list N.
  Variable strategies : name -> strategy.
  Hypothesis W : world_ok sort_nexthops same_type face_order.
  Notation event_fn := (fw_event sort_nexthops create_strategy same_type make_entry rand face_order strategies).

  Lemma i2_life s i : (0 <= i_lifetime i)%Z -> (0 <= i_lifetime (strip_hint (fw_regions s) (dec_hop i)))%Z.
  Proof. intros H. unfold strip_hint, dec_hop. destruct (i_hop i); simpl; destruct (i_hint i); try done; by destruct (in_producer_region _ _). Qed.
  Lemma miss_satoms i2 f s2 s3 s' new e e3 : (0 <= i_lifetime i2)%Z ->
    missed (with_default_hop s2 i2) f (key_of i2) new i2 e e3 s2 s3 -> forwards rand face_order strategies (with_default_hop s2 i2) f (key_of i2) s3 s' ->
    rtc (anyk (Some (with_default_hop s2 i2)) (key_of i2)) s3 s'.
  Proof.
    intros Hl Hm Hfw. eapply forwards_satoms; [exact W|apply Hm| |exact Hfw]. unfold with_default_hop. by destruct (add_hop s2 i2).
  Qed.

  (** ** Timers *)
  Lemma event_timed s ev s' : Inv s -> Timed s -> ev_ok s ev -> event_fn ev s = Some (s', tt) -> Timed s'.
  Proof.
    intros I H Ho He.
    assert (Hp : plain ev \/ ~ plain ev) by (destruct ev; ((left; done) || (right; by intros []))). destruct Hp as [Hp|Hp].
    { eapply timed_msteps; [exact I|exact H|]. by eapply other_cases. }
    destruct ev as [f i|f d|f i r|k|inst arg k|p f c|p f|p req|p|fc|fc id|f|l|p|h|o| | |d]; try (by destruct Hp).
    - pose proof Ho as (_ & Hl & _). eapply interest_cases in He as (fc & _ & Hc); [|done|done].
      assert (Hlo : forall j g s0, Timed s0 -> Timed (loop_out strategies j g s0)).
      { intros j g s0 I0. unfold loop_out. destruct (loop_nacks _ _ _ _); [|done]. by apply (timed_same s0). }
      assert (H0 : Timed (got (Rx_interest f i) inc_in_interests s)) by (by apply (timed_same s)).
      destruct Hc as [_ ->|_ _ _ ->|Hz _ Hp']; [by apply (timed_same s)|done|].
      destruct Hp' as [_ ->|i2 e new s1 _ Hi2 Hins Hp']; [by apply Hlo|]. set (s0 := got _ _ s) in *.
      assert (Hold : e <> new_pit_entry i2 -> Timed s1).
      { intros Hne k0 e0. rewrite (ins_pits _ _ _ _ _ Hins). case_decide; [|apply H0]. intros [= <-]. pose proof (ins_e _ _ _ _ _ Hins) as Hx.
        destruct (pit_at (fw_t s0) (key_of i2)) as [e1|] eqn:E1; simpl in Hx; [|done]. subst e1. by apply (H0 _ _ E1). }
      assert (Hoth : forall k0 e0, k0 <> key_of i2 -> pit_at (fw_t s1) k0 = Some e0 -> is_Some (pe_timer e0)).
      { intros k0 e0 Hk. rewrite (ins_pits _ _ _ _ _ Hins), decide_False by done. apply H0. }
      destruct Hp' as [Hd ->|c d _ Hin Hcs I2 Hhit|s2 e3 s3 _ Hncs I2 Hm Hfw].
      + apply Hlo, Hold. intros ->. by apply (is_dup_new _ _ _ _ Hd).
      + destruct Hhit as [(sc & Hw & ->) _]. assert (Hs : Timed sc).
        { intros k0 e0. destruct (wr_entry _ _ _ _ _ Hw) as [E1 E2]. rewrite E2. case_decide; [intros [= <-]; by eexists|]. by apply Hoth. }
        destruct (_ || _); [by apply (timed_same sc)|done].
      + eapply timed_satoms; [apply Hm| |eapply miss_satoms; [|exact Hm|exact Hfw]; subst i2; by apply i2_life].
        destruct Hm as [Hw _ _ _ _ _ _ _ (ms & _ & Ht)]. intros k0 e0. destruct (wr_entry _ _ _ _ _ Hw) as [E1 E2]. rewrite E2. case_decide; [intros [= <-]; rewrite Ht; by eexists|].
        assert (Ht2 : fw_t s2 = fw_t s1) by (by destruct Hncs as [[_ ->]|(_ & c & _ & ->)]). simpl. rewrite Ht2. by apply Hoth.
    - eapply data_cases in He as (fc & _ & Hc); [|exact W|done|done].
      assert (H0 : Timed (got (Rx_data f d) inc_in_data s)) by (by apply (timed_same s)).
      assert (Hins : forall u s0 s1, Timed s0 -> inserted_data d u s0 s1 -> Timed s1) by (intros u s0 s1 Hs0 (c & _ & -> & _); by apply (timed_same s0)).
      destruct Hc as [_ _ ->|_ _ Hu|k e s1 s2 s3 _ He _ Hi W2 Hr Hf|ks s1 s2 pend _ Hn _ Hks Hi Hl _ _ Hs]; [done|..].
      + cbv zeta in Hu. set (s1 := set_cnt _ _) in Hu. assert (H1 : Timed s1) by (by apply (timed_same s)). destruct (unsol_decide _ _); [by eapply Hins|by subst].
      + assert (H2 : Timed s2) by (eapply timed_wrote; [by eapply (Hins false)|exact W2|]; intros _; by eexists).
        assert (H3 : Timed s3) by (eapply timed_msteps; [exact (wr_inv _ _ _ _ _ W2)|exact H2|]; eapply received_msteps; [exact W|exact (wr_inv _ _ _ _ _ W2)|exact Hr]).
        apply finished_spec in Hf as (_ & _ & _ & _ & _ & _ & Hk & e3 & He3 & He3'). intros k0 e0 Hk0. destruct (decide (k0 = k)) as [->|]; [|rewrite Hk in Hk0 by done; by apply (H3 k0)].
        rewrite He3' in Hk0. injection Hk0 as <-. simpl. by apply (H3 k).
      + pose proof (Hins _ _ _ H0 Hi) as H1. destruct Hi as (c & _ & -> & I1). eapply sat_loop_spec in Hl as (I2 & _ & _ & _ & L1 & L2); [|exact W|done|done].
        assert (H2 : Timed s2).
        { intros k0 e0 Hk0. destruct (decide (k0 ∈ ks)) as [Hin|Hin]; [|rewrite L1 in Hk0 by done; by apply (H1 k0)].
          destruct (L2 k0 Hin) as (e1 & e2 & _ & E2 & _ & _ & _ & _ & Ht). rewrite Hk0 in E2. by injection E2 as <-. }
        set (l := List.filter (not_back (fw_faces s2) f) (face_order pend)) in Hs. clearbody l. clear -H2 Hs. revert s2 H2 Hs.
        induction l as [|g l IH]; intros s2 I2 Hr; simpl in Hr; [by injection Hr as <-|].
        apply bind_Some in Hr as (s3 & [] & H1 & Hr). eapply IH; [|exact Hr]. apply out_data_one in H1 as [->|(fc & _ & _ & ->)]; [done|]. by apply (timed_same s2).
    - eapply nack_cases in He as (fc & _ & Hc); [|done]. assert (H0 : Timed (got (Rx_nack f i r) inc_in_nacks s)) by (by apply (timed_same s)).
      destruct Hc as [_ ->|e rec s1 s2 p inst _ He _ _ W1 H2 _ Hr]; [done|].
      assert (H1 : Timed s1) by (by eapply timed_wrote).
      assert (I2 : Inv s2 /\ Timed s2).
      { destruct (has_pending_out _ _); [subst; split; [apply W1|done]|]. split; [apply H2|]. eapply timed_wrote; [exact H1|exact H2|]. intros _. by eexists. }
      destruct I2 as [I2 A2]. assert (Hx : rtc (anyk None (key_of i)) s2 s') by (eapply run_satoms; [exact (wo_order _ _ _ W)|done|done|exact Hr]). by eapply timed_satoms.
    - apply timer_case in He as [e Hz]; [|done]. intros k0 e0. rewrite (fz_pits _ _ _ _ _ _ Hz). case_decide; [done|apply H].
    - eapply face_remove_case in He as [Hu _]; [|exact create_strategy|exact W|done]. intros k0 e0. rewrite (uf_pits _ _ _ Hu).
      destruct (pit_at (fw_t s) k0) as [e1|] eqn:E1; [|done]. intros [= <-]. by apply (H k0 e1).
  Qed.

  (** ** Pending Interests *)
  Hypothesis Hquiet : forall inst d f k, quiet (st_before (strategies inst) d f k).
  Lemma sat_loop_quiet d f ks s s' : Inv s -> sat_loop make_entry rand face_order strategies d f ks s s' -> fw_log s' = fw_log s.
  Proof.
    intros I H. induction H as [|k ks e p inst s s1 s2 s3 s4 W1 He Hr Hf Hs IH]; [done|].
    assert (I1 := wr_inv _ _ _ _ _ W1). pose proof Hr as Hq. eapply run_quiet in Hq; [|exact W|exact I1|done|apply Hquiet].
    destruct (satoms_quiet _ _ _ _ _ Hq) as (_ & Hl & _ & _). pose proof (finished_spec _ _ _ _ _ _ _ _ Hf) as (I3 & _ & Hl3 & _).
    rewrite IH by done. rewrite Hl3, Hl. apply W1.
  Qed.
  Lemma each_out_acc d (ks : list pit_key) l : forall (P : pending_set) s s', NoDup l -> Acc P s -> (forall k e, k ∈ ks -> pit_at (fw_t s) k = Some e -> pe_in e = []) ->
    (forall g, g ∈ l -> exists k, k ∈ ks /\ P g k /\ satisfies k d) ->
    each l (fun g => bind (on_outgoing_data d None g) (fun _ => ret tt)) s = Some (s', tt) -> exists P', Acc P' s'.
  Proof.
    induction l as [|g l IH]; intros P s s' Hn H Hin Hg Hr; simpl in Hr; [injection Hr as <-; by exists P|].
    apply NoDup_cons in Hn as [Hn1 Hn2]. apply bind_Some in Hr as (s1 & [] & H1 & Hr). apply out_data_one in H1 as [->|(fc & _ & _ & ->)].
    - eapply (IH P); [done|done|done| |exact Hr]. intros g' Hg'. apply Hg. by right.
    - destruct (Hg g) as (k & Hk & Hp & Hsat); [by left|].
      eapply (IH (fun g' k' => P g' k' /\ ~ (g' = g /\ k' = k)) (got (Tx_data g d None) inc_out_data s)); [done| |exact Hin| |exact Hr].
      + destruct H as [A1 A2]. split; [by eapply acc_tx_data|]. intros k0 e0 r0 He0 Hr0. split; [by eapply A2|]. intros [_ ->].
        rewrite (Hin k e0 Hk He0) in Hr0. by apply elem_of_nil in Hr0.
      + intros g' Hg'. destruct (Hg g') as (k' & Hk' & Hp' & Hsat'); [by right|]. exists k'. split; [done|]. split; [|done]. split; [done|]. intros [-> _]. done.
  Qed.

  Lemma event_acc P s ev s' : Inv s -> Acc P s -> ev_ok s ev -> event_fn ev s = Some (s', tt) -> exists P', Acc P' s'.
  Proof.
    intros I H Ho He.
    assert (Hp : plain ev \/ ~ plain ev) by (destruct ev; ((left; done) || (right; by intros []))). destruct Hp as [Hp|Hp].
    { eapply msteps_acc; [exact I|exact H|]. by eapply other_cases. }
    destruct ev as [f i|f d|f i r|k|inst arg k|p f c|p f|p req|p|fc|fc id|f|l|p|h|o| | |d]; try (by destruct Hp).
    - pose proof Ho as (_ & Hlife & _). eapply interest_cases in He as (fc & _ & Hc); [|done|done].
      set (P0 := fun g k => P g k \/ (g = f /\ k = key_of i)). set (s0 := got (Rx_interest f i) inc_in_interests s) in *.
      assert (H0 : Acc P0 s0) by (destruct H as [A1 A2]; split; [by constructor|]; intros k e r He Hr; left; by eapply A2).
      assert (Hlo : forall j s1, key_of j = key_of i -> Acc P0 s1 -> Acc P0 (loop_out strategies j f s1)).
      { intros j s1 Hj [A1 A2]. unfold loop_out. destruct (loop_nacks _ _ _ _); [|done]. split; [|done]. apply acc_tx_dup; [done|]. right. by rewrite Hj. }
      destruct Hc as [_ ->|_ _ _ ->|Hz _ Hp']; [exists P0; by apply (acc_same P0 s0)|by exists P0|].
      destruct Hp' as [_ ->|i2 e new s1 _ Hi2 Hins Hp']; [exists P0; apply Hlo; [apply key_dec_hop|done]|].
      assert (Hk2 : key_of i2 = key_of i) by (subst i2; by rewrite key_strip, key_dec_hop).
      assert (H1 : Acc P0 s1).
      { eapply acc_silent; [exact H0|apply Hins|]. intros k0 e0 r0. rewrite (ins_pits _ _ _ _ _ Hins). case_decide as Ek; [|intros; by exists e0, r0].
        intros [= <-] Hr0. subst k0. rewrite (ins_e _ _ _ _ _ Hins) in Hr0. fold s0 in Hr0. destruct (pit_at (fw_t s0) (key_of i2)) as [e1|]; simpl in Hr0; [by exists e1, r0|by apply elem_of_nil in Hr0]. }
      destruct Hp' as [Hd ->|c d _ Hin Hcs I2 Hhit|s2 e3 s3 _ Hncs I2 Hm Hfw]; [exists P0; by apply Hlo|..].
      + destruct Hhit as [(sc & Hw & ->) Hmatch]. assert (Hs : Acc P0 sc).
        { eapply acc_wrote; [|exact Hw|]; [by apply (acc_same P0 s1)|]. intros r' Hr'. by exists r'. }
        destruct (_ || _); [|by exists P0]. exists (fun g k' => P0 g k' /\ ~ (g = f /\ k' = key_of i)). destruct Hs as [A1 A2]. split.
        * apply acc_tx_data; [done|by right|]. rewrite <- Hk2. eapply satisfies_key; [|exact Hmatch]. apply Hins.
        * intros k0 e0 r0 He0 Hr0. split; [by eapply A2|]. intros [_ ->]. destruct (wr_entry _ _ _ _ _ Hw) as [_ E2]. simpl in He0. rewrite E2, Hk2, decide_True in He0 by done.
          injection He0 as <-. simpl in Hr0. rewrite Hin in Hr0. by apply elem_of_nil in Hr0.
      + assert (Ht2 : fw_t s2 = fw_t s1 /\ fw_log s2 = fw_log s1) by (by destruct Hncs as [[_ ->]|(_ & c & _ & ->)]).
        assert (H3 : Acc P0 s3).
        { destruct Hm as [Hw _ _ Hi3 _ _ _ _ _]. destruct H1 as [A1 A2]. split; [rewrite (wr_log _ _ _ _ _ Hw); simpl; by rewrite (proj2 Ht2)|].
          destruct (wr_entry _ _ _ _ _ Hw) as [E1 E2]. intros k0 e0 r0. rewrite E2. simpl. rewrite (proj1 Ht2). case_decide; [|apply A2]. intros [= <-]. rewrite Hi3.
          intros [Hr0|[Hr0 _]]%insert_in_elem.
          - subst k0. eapply A2; [|exact Hr0]. simpl in E1. rewrite (proj1 Ht2) in E1. done.
          - right. split; [done|]. by subst. }
        eapply satoms_acc; [apply Hm|exact H3|]. eapply miss_satoms; [|exact Hm|exact Hfw]. subst i2. by apply i2_life.
    - eapply data_cases in He as (fc & _ & Hc); [|exact W|done|done]. set (s0 := got (Rx_data f d) inc_in_data s) in *.
      assert (H0 : Acc P s0) by (destruct H as [A1 A2]; split; [by constructor|done]).
      assert (Hins : forall u s0 s1, Acc P s0 -> inserted_data d u s0 s1 -> Acc P s1) by (intros u s2 s1 Hs0 (c & _ & -> & _); by apply (acc_same P s2)).
      destruct Hc as [_ _ ->|_ _ Hu|k e s1 s2 s3 _ He _ Hi W2 Hr Hf|ks s1 s2 pend _ Hn _ Hks Hi Hl Hpn Hpe Hs]; [by exists P|..].
      + cbv zeta in Hu. set (s1 := set_cnt _ _) in Hu. assert (H1 : Acc P s1) by (by apply (acc_same P s0)). exists P. destruct (unsol_decide _ _); [by eapply Hins|by subst].
      + assert (H2 : Acc P s2) by (eapply acc_wrote; [by eapply (Hins false)|exact W2|]; intros r' Hr'; by exists r').
        assert (H3 : exists P', Acc P' s3) by (eapply msteps_acc; [exact (wr_inv _ _ _ _ _ W2)|exact H2|]; eapply received_msteps; [exact W|exact (wr_inv _ _ _ _ _ W2)|exact Hr]).
        destruct H3 as [P' H3]. exists P'. apply finished_spec in Hf as (_ & _ & Hl & _ & _ & _ & Hk & e3 & He3 & He3').
        eapply acc_silent; [exact H3|done|]. intros k0 e0 r0 Hk0 Hr0. destruct (decide (k0 = k)) as [->|]; [|rewrite Hk in Hk0 by done; by exists e0, r0].
        rewrite He3' in Hk0. injection Hk0 as <-. simpl in Hr0. by exists e3, r0.
      + pose proof (Hins _ _ _ H0 Hi) as H1. destruct Hi as (c & _ & Es1 & I1). pose proof (sat_loop_quiet _ _ _ _ _ I1 Hl) as Hlog.
        eapply sat_loop_spec in Hl as (I2 & Hcf & _ & _ & L1 & L2); [|exact W|done|done].
        assert (H2 : Acc P s2).
        { eapply acc_silent; [exact H1|done|]. intros k0 e0 r0 Hk0 Hr0. destruct (decide (k0 ∈ ks)) as [Hin|Hin]; [|rewrite L1 in Hk0 by done; by exists e0, r0].
          destruct (L2 k0 Hin) as (e1 & e2 & _ & E2 & _ & Hemp & _). rewrite Hk0 in E2. injection E2 as <-. rewrite Hemp in Hr0. by apply elem_of_nil in Hr0. }
        eapply (each_out_acc d ks); [|exact H2| | |exact Hs].
        * eapply sublist_NoDup; [apply sublist_filter|]. rewrite (wo_order _ _ _ W). done.
        * intros k0 e0 Hin Hk0. destruct (L2 k0 Hin) as (e1 & e2 & _ & E2 & _ & Hemp & _). rewrite Hk0 in E2. by injection E2 as <-.
        * intros g Hg. assert (Hg' : g ∈ pend).
          { eapply elem_of_submseteq in Hg; [|apply sublist_submseteq, sublist_filter]. by rewrite (wo_order _ _ _ W) in Hg. }
          apply Hpe in Hg' as (k0 & e0 & Hk0 & He0 & (r & Hr & Hf & _)%pending_elem). exists k0. split; [done|]. split.
          -- rewrite <- Hf. destruct H as [_ A2]. by eapply A2.
          -- apply Hks in Hk0 as (e1 & He1 & Hm). rewrite He0 in He1. injection He1 as <-. eapply satisfies_key; [|exact Hm]. by eapply (entry_ok s).
    - eapply nack_cases in He as (fc & _ & Hc); [|done].
      assert (H0 : Acc P (got (Rx_nack f i r) inc_in_nacks s)) by (destruct H as [A1 A2]; split; [by constructor|done]).
      destruct Hc as [_ ->|e rec s1 s2 p inst _ He _ _ W1 H2 _ Hr]; [by exists P|].
      assert (H1 : Acc P s1) by (eapply acc_wrote; [exact H0|exact W1|]; intros r' Hr'; by exists r').
      assert (I2 : Inv s2 /\ Acc P s2).
      { destruct (has_pending_out _ _); [subst; split; [apply W1|done]|]. split; [apply H2|]. eapply acc_wrote; [exact H1|exact H2|]. intros r' Hr'. by exists r'. }
      destruct I2 as [I2 A2]. assert (Hx : rtc (anyk None (key_of i)) s2 s') by (eapply run_satoms; [exact (wo_order _ _ _ W)|done|done|exact Hr]). by eapply satoms_acc.
    - apply timer_case in He as [e Hz]; [|done]. exists P. eapply acc_silent; [exact H|apply Hz|]. intros k0 e0 r0. rewrite (fz_pits _ _ _ _ _ _ Hz). case_decide; [done|]. intros. by exists e0, r0.
    - eapply face_remove_case in He as [Hu _]; [|exact create_strategy|exact W|done]. exists P. eapply acc_silent; [exact H|by destruct (uf_eq _ _ _ Hu) as [T ->]|].
      intros k0 e0 r0. rewrite (uf_pits _ _ _ Hu). destruct (pit_at (fw_t s) k0) as [e1|] eqn:E1; [|done]. intros [= <-] Hr0. exists e1, r0. split; [done|]. split; [|done].
      simpl in Hr0. by eapply delete_in_elem.
  Qed.

  Notation reachable := (fw_reachable sort_nexthops create_strategy same_type make_entry rand face_order strategies).
  Theorem reachable_acc s : reachable s -> exists P, Acc P s.
  Proof.
    induction 1 as [def limit s H|s ev s' Hr [P IH] Ho Hs].
    - destruct (new_inv _ _ _ _ W _ _ _ H) as (_ & _ & Hl & Hp). exists (fun _ _ => False). split; [rewrite Hl; constructor|]. intros k e r. by rewrite Hp.
    - eapply event_acc; [|exact IH|exact Ho|by apply step_event]. by eapply reachable_inv.
  Qed.
End acc.
Section timed.
  Variable sort_nexthops : list nexthop -> list nexthop.
  Variable create_strategy : name -> create_result.
  Variable same_type : name -> name -> bool.
  Variable make_entry : name -> N -> Dnl_Model.fingerprint.
  Variable rand : nat -> nat.
  Variable face_order : list N -> list N.
  Variable strategies : name -> strategy.
  Hypothesis W : world_ok sort_nexthops same_type face_order.
  Notation reachable := (fw_reachable sort_nexthops create_strategy same_type make_entry rand face_order strategies).
  Theorem reachable_timed s : reachable s -> Timed s.
  Proof.
    induction 1 as [def limit s H|s ev s' Hr IH Ho Hs].
    - destruct (new_inv _ _ _ _ W _ _ _ H) as (_ & _ & Hl & Hp). intros k e. by rewrite Hp.
    - eapply event_timed; [exact W| |exact IH|exact Ho|by apply step_event]. by eapply reachable_inv.
  Qed.
End timed.
