(** What each event does to expiry timers, when no strategy touches them ([b]), and to the
    satisfied flags *)
From stdpp Require Import gmap.
From Verif Require Import Lib Name_Model Name_Proof Packet_Model Nt_Model Nt_Spec Nt_Tree Tree_Model Tree_Proof Tab_Model Tab_Spec Tab_At Tab_Fib Tab_Pit Tab_Pit2 Tab_Meas Tab_Sc Tab_Clean Tab_Run Tab_Main Fw_Model Fw_Spec Fw_Inv Fw_Case Fw_Case2 Fw_Case3 Fw_Hist Fw_Acc Fw_Step Fw_Out Fw_Main Fw_Data.
From Verif Require Cs_Model Cs_Spec Cs_Main Cs_Run Dnl_Model.

Section held.
  Variable b : bool.
  Variable rej : Prop.
  Variable n : Z.
(** timers and satisfaction are as before, or the timer is set to [n] *)
Definition held (e e' : pit_entry) : Prop := (b = true -> pe_timer e' = pe_timer e \/ rej /\ pe_timer e' = Some n) /\ pe_satisfied e' = pe_satisfied e.
Definition keep (s s' : fw) : Prop := forall k e', pit_at (fw_t s') k = Some e' -> exists e, pit_at (fw_t s) k = Some e /\ held e e'.
Lemma held_refl e : held e e. Proof. split; [by left|done]. Qed.
Lemma held_trans e1 e2 e3 : held e1 e2 -> held e2 e3 -> held e1 e3.
Proof. intros [A1 A2] [B1 B2]. split; [|congruence]. intros Hb. destruct (B1 Hb) as [->|?]; [|by right]. by apply A1. Qed.
Lemma keep_refl s : keep s s.
Proof. intros k e He. exists e. split; [done|apply held_refl]. Qed.
Lemma keep_same s s' : fw_t s' = fw_t s -> keep s s'.
Proof. intros H k e. rewrite H. intros He. exists e. split; [done|apply held_refl]. Qed.
Lemma keep_trans s1 s2 s3 : keep s1 s2 -> keep s2 s3 -> keep s1 s3.
Proof. intros H1 H2 k e3 (e2 & He2 & H23)%H2. destruct (H1 k e2 He2) as (e1 & He1 & H12). exists e1. split; [done|]. by eapply held_trans. Qed.
Lemma keep_entry k e e' s s' : entry_to k e e' s s' -> held e e' -> keep s s'.
Proof. intros [E1 E2] Hh k0 e0. rewrite E2. case_decide; [|intros; exists e0; split; [done|apply held_refl]]. intros [= <-]. subst. by exists e. Qed.
Definition Kstill : fw -> act -> Prop := fun _ a => match a with ATimer ms => b = false \/ rej /\ ms = 0%Z | _ => True end.
Lemma satoms_keep R trig k s s' : now (fw_t s) = n -> rtc (allowed R Kstill trig k) s s' -> keep s s'.
Proof.
  intros Hnow H. induction H as [|s s1 s' (a & Ha & lr & _ & HK) H2 IH]; [apply keep_refl|].
  assert (Hnow1 : now (fw_t s1) = n) by (rewrite <- Hnow; symmetry; apply satom_core in Ha; symmetry; apply Ha). eapply keep_trans; [|by apply IH].
  destruct Ha as [-> C T E|e e' -> C T E L Hn Ht|e e' ms -> C T E L Hn Ht|e i j src nonce nd f fc -> C T Hs Hd Hj Hf Hh E Hn|src nonce nd f -> C E
      |e r d f0 f fc -> C T Hr Hm Hf Hl E Hn|e r d f0 f fc -> C T Hr Hm Hf Hl Hl' E Hn|e r f fc reason -> C T Hr Hf Hl E Hn]; try done.
  - intros k0 e0. rewrite E. intros. exists e0. split; [done|apply held_refl].
  - eapply keep_entry; [exact E|]. split; [by left|apply L].
  - eapply keep_entry; [exact E|]. simpl in HK. split; [|apply L]. intros Hb. destruct HK as [?|[Hr ->]]; [congruence|]. right. split; [done|]. rewrite Ht, Hnow. unfold ns_of_ms, wrap64, NS_PER_MS. rewrite Z.mod_small by lia. f_equal. lia.
  - eapply keep_entry; [exact E|by split; [left|]].
  - by apply keep_same.
  - eapply keep_entry; [exact E|by split; [left|]].
  - eapply keep_entry; [exact E|by split; [left|]].
  - eapply keep_entry; [exact E|by split; [left|]].
Qed.
Lemma env_keep s s' : env s s' -> keep s s'.
Proof.
  intros E k e' He'. pose proof (en_pits _ _ E k) as Hx. rewrite He' in Hx. inversion Hx as [e e0 [L Ht] He|]; subst. exists e. split; [done|]. split; [by left|apply L].
Qed.
End held.
Lemma max_by_spec (l : list in_record) b : let m := max_by (fun a b => (fr_expiry (ir_rec a) <? fr_expiry (ir_rec b))%Z) b l in
  m ∈ b :: l /\ forall r, r ∈ b :: l -> (fr_expiry (ir_rec r) <= fr_expiry (ir_rec m))%Z.
Proof.
  revert b. induction l as [|x l IH]; intros b; simpl.
  - split; [by left|]. intros r ->%elem_of_list_singleton. lia.
  - destruct (IH (if (fr_expiry (ir_rec b) <? fr_expiry (ir_rec x))%Z then x else b)) as [H1 H2]. destruct (Z.ltb_spec (fr_expiry (ir_rec b)) (fr_expiry (ir_rec x))) as [L|L].
    + split; [by right|]. intros r [->|Hr]%elem_of_cons; [|by apply H2]. specialize (H2 x ltac:(by left)). lia.
    + split; [apply elem_of_cons in H1 as [->|?]; [by left|by right; right]|].
      intros r [->|[->|Hr]%elem_of_cons]%elem_of_cons; [apply H2; by left| |apply H2; by right]. specialize (H2 b ltac:(by left)). lia.
Qed.
Lemma last_expiry_spec t e ms : last_expiry_ms t e = Some ms -> exists m, m ∈ pe_in e /\ (forall r, r ∈ pe_in e -> (fr_expiry (ir_rec r) <= fr_expiry (ir_rec m))%Z) /\
  ms = Z.quot (fr_expiry (ir_rec m) - t) 1000000.
Proof.
  unfold last_expiry_ms. destruct (pe_in e) as [|b l] eqn:E; [done|]. intros [= <-]. destruct (max_by_spec l b) as [H1 H2]. eexists. split; [exact H1|]. split; [exact H2|done].
Qed.

Section timer.
  Variable sort_nexthops : list nexthop -> list nexthop.
  Variable create_strategy : name -> create_result.
  Variable same_type : name -> name -> bool.
  Variable make_entry : name -> N -> Dnl_Model.fingerprint.
  Variable rand : nat -> nat.
  Variable face_order : list N -> list N.
  Variable strategies : name -> strategy.
  Hypothesis W : world_ok sort_nexthops same_type face_order.
  Variable b : bool.
  Variable rej : Prop.
  Hypothesis P : b = true -> forall inst, patient rej (strategies inst).
  Definition calm (p : sprog) : Prop := forall s, obeys (fun _ => True) (Kstill b rej) s p.
  Lemma calm_of p : (b = true -> rejects_only rej p) -> calm p.
  Proof.
    intros H s. destruct b eqn:Eb; (eapply obeys_mono; [| |first [apply (H eq_refl)|apply obeys_any]]; [done|]); intros s0 []; simpl; auto.
  Qed.
  Ltac pat := apply calm_of; intros Hpb; by apply (P Hpb).
  Local Notation keep := (keep b rej). Local Notation held := (held b rej). Local Notation Kstill := (Kstill b rej).
  Notation event_fn := (fw_event sort_nexthops create_strategy same_type make_entry rand face_order strategies).

  Lemma run_keep trig k p s s' u : Inv s -> (forall i, trig = Some i -> (0 <= i_lifetime i)%Z) -> calm p ->
    run rand face_order trig k p s = Some (s', u) -> Inv s' /\ keep (now (fw_t s)) s s' /\ same_core s s'.
  Proof.
    intros I Ht Hq H. assert (Hr : rtc (allowed (fun _ => True) Kstill trig k) s s').
    { eapply (run_obeys _ _ (wo_order _ _ _ W) (fun _ => True) Kstill trig k (fun _ => True)); [done|done|done|done|done|done|done|apply (Hq s)|exact H]. }
    split; [by eapply satoms_inv|]. split; [by eapply satoms_keep|by eapply satoms_core].
  Qed.
  Lemma received_keep d f k s s' : Inv s -> received rand face_order strategies d f k s s' -> Inv s' /\ keep (now (fw_t s)) s s' /\ same_core s s'.
  Proof.
    intros I (p & inst & _ & H). unfold after_receive_data in H. destruct (st_data (strategies inst)) as [q|] eqn:Eq.
    - eapply (run_keep None); [done|done| |exact H]. apply calm_of. intros Hpb. by eapply (patient_data _ _ (P Hpb inst)).
    - apply bind_Some in H as (s1 & v & H1 & H). eapply run_keep in H1 as (I1 & K1 & C1); [|done|done|pat].
      apply (a_data_all _ (wo_order _ _ _ W) None) in H as (e & He & Hr & _ & _ & _); [|done].
      assert (Hr' : rtc (allowed (fun _ => True) Kstill None k) s1 s') by (eapply rtc_subrel; [|exact Hr]; intros s4 s5 Hab; exists (AData d f); split; [done|by exists s1]).
      split; [by eapply satoms_inv|]. split; [eapply keep_trans; [exact K1|eapply satoms_keep; [apply C1|exact Hr']]|eapply same_core_trans; [exact C1|by eapply satoms_core]].
  Qed.
  Lemma sat_loop_keep d f ks s s' : Inv s -> NoDup ks -> sat_loop make_entry rand face_order strategies d f ks s s' ->
    (forall k, k ∉ ks -> pit_at (fw_t s') k = pit_at (fw_t s) k) /\
    forall k e', k ∈ ks -> pit_at (fw_t s') k = Some e' -> (b = true -> pe_timer e' = Some (now (fw_t s))) /\ pe_satisfied e' = true.
  Proof.
    intros I Hn H. split; [intros k Hk; by apply (sat_loop_spec _ _ _ _ _ _ W _ _ _ _ _ I Hn H)|].
    induction H as [|k ks e p inst s s1 s2 s3 s4 W1 He Hr Hf Hs IH]; [intros k e' Hk; by apply elem_of_nil in Hk|].
    apply NoDup_cons in Hn as [Hn1 Hn2]. pose proof (wr_inv _ _ _ _ _ W1) as I1. eapply run_keep in Hr as (I2 & K2 & C2); [|done|done|pat].
    pose proof (finished_spec _ _ _ _ _ _ _ _ Hf) as (I3 & C3 & _ & _ & _ & _ & Hk3 & e2 & He2 & He3).
    assert (Hnow : now (fw_t s3) = now (fw_t s)) by (transitivity (now (fw_t s2)); [apply C3|]; rewrite (sc_now _ _ C2); apply (wr_core _ _ _ _ _ W1)).
    intros k0 e0 [->|Hk0]%elem_of_cons He0.
    - rewrite (proj1 (proj2 (proj2 (proj2 (proj2 (sat_loop_spec _ _ _ _ _ _ W _ _ _ _ _ I3 Hn2 Hs)))))) in He0 by done. rewrite He3 in He0. injection He0 as <-. split; [|done]. simpl.
      destruct (K2 k e2 He2) as (e1 & He1 & Ht & _). rewrite (proj2 (wrote_at _ _ _ _ _ W1)) in He1. injection He1 as <-. intros Hb. destruct (Ht Hb) as [->|[_ ->]]; [done|]. f_equal. apply (wr_core _ _ _ _ _ W1).
    - rewrite <- Hnow. by eapply IH.
  Qed.
  Lemma new_hop_keep p nh s s' u : Inv s -> on_new_next_hop rand face_order strategies p nh s = Some (s', u) -> keep (now (fw_t s)) s s'.
  Proof.
    intros I H. unfold on_new_next_hop in H. apply bind_Some in H as (s0 & s1 & [= <- <-] & H).
    set (l := affected p (fw_t s)) in H. clearbody l. revert s I H. induction l as [|k l IH]; intros s I H; simpl in H; [injection H as <- <-; apply keep_refl|].
    apply bind_Some in H as (s1 & v & H1 & H). apply bind_Some in H1 as (s2 & st & Hst & H1). unfold strategy_for in Hst.
    destruct (effective (pk_name k) (fw_t s)) as [[q inst]|]; [|done]. injection Hst as <- <-.
    eapply run_keep in H1 as (I1 & K1 & C1); [|done|done|pat]. eapply keep_trans; [exact K1|]. rewrite <- (sc_now _ _ C1). by apply IH.
  Qed.

  Inductive timer_move (s : fw) (ev : event) (k : pit_key) (e' : pit_entry) : Prop :=
  | tc_kept e : (forall f i, ~ takes_interest make_entry s ev k f i) -> ~ takes_data s ev k -> ~ takes_nack s ev k -> pit_at (fw_t s) k = Some e -> held (now (fw_t s)) e e' -> timer_move s ev k e'
  | tc_data : takes_data s ev k -> (b = true -> pe_timer e' = Some (now (fw_t s))) -> pe_satisfied e' = true -> timer_move s ev k e'
  | tc_hit f i : takes_interest make_entry s ev k f i -> (exists d, cs_answers s i d) -> (forall g r, ~ in_record_of s k g r) -> (b = true -> pe_timer e' = Some (now (fw_t s))) -> pe_satisfied e' = true -> timer_move s ev k e'
  | tc_nack e : takes_nack s ev k -> pit_at (fw_t s) k = Some e -> (b = true -> pe_timer e' = Some (now (fw_t s))) -> pe_satisfied e' = pe_satisfied e -> timer_move s ev k e'
  | tc_interest f i t D : takes_interest make_entry s ev k f i -> (b = true -> pe_timer e' = Some t \/ rej /\ pe_timer e' = Some (now (fw_t s))) -> last_deadline s f i D -> (t <= D < t + MS)%Z -> (now (fw_t s) <= t)%Z ->
      pe_satisfied e' = default false (pe_satisfied <$> pit_at (fw_t s) k) -> timer_move s ev k e'.

  Theorem event_timer s ev s' k e' : Inv s -> ev_ok s ev -> event_fn ev s = Some (s', tt) -> pit_at (fw_t s') k = Some e' -> timer_move s ev k e'.
  Proof.
    intros I Ho He Hk.
    set (un := (forall f i, ~ takes_interest make_entry s ev k f i) /\ ~ takes_data s ev k /\ ~ takes_nack s ev k).
    assert (Hkept : forall e, un -> pit_at (fw_t s) k = Some e -> held (now (fw_t s)) e e' -> timer_move s ev k e') by (intros e (U1 & U2 & U3); by apply tc_kept).
    assert (Hkeep : un -> keep (now (fw_t s)) s s' -> timer_move s ev k e') by (intros U Hke; destruct (Hke k e' Hk) as (e & He0 & Hh); by eapply Hkept).
    assert (Hst : un -> still ev -> timer_move s ev k e') by (intros U Hst; apply Hkeep, env_keep; [done|]; by eapply still_cases).
    assert (Hother : match ev with EvInterest _ _ | EvData _ _ | EvNack _ _ _ => False | _ => True end -> un).
    { intros Hv. split; [|split]; [intros f i (-> & _)|intros (f & d & -> & _)|intros (f & i & r & -> & _)]; done. }
    destruct ev as [f i|f d|f i r|k1|inst arg k1|p f c|p f|p req|p|fc|fc id|f|l|p|h|o| | |d]; try (by apply Hst; [apply Hother|]).
    - pose proof Ho as (_ & Hl & _). eapply interest_cases in He as (fc & Hfc & Hc); [|done|done].
      assert (Hlo : forall j g s0, fw_t (loop_out strategies j g s0) = fw_t s0) by (intros j g s0; unfold loop_out; by destruct (loop_nacks _ _ _ _)).
      assert (Hun : ~ takes_interest make_entry s (EvInterest f i) k f i -> un).
      { intros Hno. split; [|split]; [|by intros (? & ? & ? & _)|by intros (? & ? & ? & ? & _)]. intros f0 i0 Ht. pose proof Ht as ([= <- <-] & _). done. }
      destruct Hc as [Hz ->|_ Hl1 Hl2%is_localhost_spec ->|Hz Hsc Hp'].
      { apply Hkeep, keep_same; [|done]. apply Hun. by intros (_ & _ & ? & _). }
      { apply Hkeep, keep_same; [|done]. apply Hun. intros (_ & _ & _ & Hx & _). destruct (Hx Hl2) as (fc' & ? & ?). congruence. }
      destruct Hp' as [Hdn ->|i2 e new s1 Hdn Hi2 Hins Hp']; [apply Hkeep, keep_same; [|by rewrite Hlo]; apply Hun; intros (_ & _ & _ & _ & ? & _); congruence|].
      assert (Hsc' : localhost (i_name i) -> local_face s f).
      { intros Hx%is_localhost_spec. rewrite Hx, andb_true_r in Hsc. exists fc. split; [done|]. by destruct (fc_local fc). }
      assert (Hk2 : key_of i2 = key_of i) by (subst i2; by rewrite key_strip, key_dec_hop).
      assert (Hl2 : i_lifetime i2 = i_lifetime i).
      { subst i2. unfold strip_hint, dec_hop. destruct (i_hop i); simpl; (destruct (i_hint i); simpl; [|destruct (in_producer_region _ _)]); done. }
      pose proof (ins_e _ _ _ _ _ Hins) as Hee. change (fw_t (got (Rx_interest f i) inc_in_interests s)) with (fw_t s) in Hee.
      pose proof (ins_pits _ _ _ _ _ Hins) as Hps. change (fw_t (got (Rx_interest f i) inc_in_interests s)) with (fw_t s) in Hps.
      assert (Hn1 : now (fw_t s1) = now (fw_t s)) by (by rewrite (sc_now _ _ (ins_core _ _ _ _ _ Hins))).
      destruct (i2_kept (fw_regions s) i) as (_ & _ & Hno2 & _). rewrite <- Hi2 in Hno2.
      assert (Htake : is_dup fc e (i_nonce i2) f = false -> k = key_of i2 -> takes_interest make_entry s (EvInterest f i) k f i).
      { intros Hnd ->. split; [done|]. split; [done|]. split; [exact Hz|]. split; [done|]. split; [done|]. intros Hloop. pose proof Hloop as Hlp. destruct Hlp as [Hex _].
        destruct (pit_at (fw_t s) (key_of i2)) as [e1|] eqn:E1; simpl in Hee.
        - subst e1. rewrite Hk2 in E1. rewrite Hno2 in Hnd. apply (is_dup_spec s f fc i e I Hfc E1) in Hloop. congruence.
        - rewrite Hk2 in E1. destruct Hex as [(g & r & (e1 & He1 & _) & _)|(g & r & (e1 & He1 & _) & _)]; congruence. }
      assert (Hun2 : k <> key_of i2 -> un) by (intros Hk'; apply Hun; intros (_ & ? & _); congruence).
      destruct Hp' as [Hd ->|c d Hnd Hin Hcs I2 Hhit|s2 e3 s3 Hnd Hncs I2 Hm Hfw].
      + apply Hkeep.
        { apply Hun. intros (_ & Hkk & _ & _ & _ & Hx). apply Hx. destruct (pit_at (fw_t s) (key_of i2)) as [e1|] eqn:E1; simpl in Hee.
          - subst e1. rewrite Hk2 in E1. rewrite Hno2 in Hd. by apply (is_dup_spec s f fc i e I Hfc E1).
          - subst e. exfalso. by apply (is_dup_new _ _ _ _ Hd). }
        intros k0 e0. rewrite Hlo, Hps. case_decide as Ek; [|intros; exists e0; split; [done|apply held_refl]]. intros [= <-]. subst k0.
        destruct (pit_at (fw_t s) (key_of i2)) as [e1|] eqn:E1; simpl in Hee; [subst e1; exists e; split; [done|apply held_refl]|]. subst e. exfalso. by apply (is_dup_new _ _ _ _ Hd).
      + destruct Hhit as [(sc & Hw & Hs') _]. assert (Hk' : pit_at (fw_t sc) k = Some e') by (rewrite <- Hk; subst s'; by destruct (_ || _)).
        destruct (wr_entry _ _ _ _ _ Hw) as [E1 E2]. rewrite E2 in Hk'. case_decide as Ek.
        * injection Hk' as <-. apply (tc_hit _ _ _ _ f i); [by apply Htake| | |intros _; simpl; by rewrite Hn1|done].
          { destruct (iv_cs _ I) as [limit Hreach]. destruct (Cs_Main.cs_find_main limit (now (fw_t s)) i2 (fw_cs s) Hreach) as (c' & r & Hfind & _ & Hr).
            rewrite Hn1, (sc_cs _ _ (ins_core _ _ _ _ _ Hins)) in Hcs. change (fw_cs (got (Rx_interest f i) inc_in_interests s)) with (fw_cs s) in Hcs. rewrite Hfind in Hcs. injection Hcs as -> ->.
            destruct Hr as (_ & _ & e0 & H0 & Hd0 & Hs0 & Hmin).
            assert (Hsat : forall e0, Cs_Spec.entry_satisfies (now (fw_t s)) i2 e0 <-> Cs_Spec.entry_satisfies (now (fw_t s)) i e0) by (intros e1; split; by apply cs_satisfies_ext).
            exists d, e0. split; [done|]. split; [done|]. split; [by apply Hsat|]. intros e1 H1 H1'%Hsat. by apply Hmin. }
          intros g r (e0 & He0 & Hr & _). rewrite Ek in He0. rewrite He0 in Hee. simpl in Hee. subst e0. rewrite Hin in Hr. by apply elem_of_nil in Hr.
        * change (pit_at (fw_t s1) k = Some e') in Hk'. rewrite Hps, decide_False in Hk' by done. eapply Hkept; [by apply Hun2|exact Hk'|apply held_refl].
      + assert (Ht2 : fw_t s2 = fw_t s1) by (by destruct Hncs as [[_ ->]|(_ & c & _ & ->)]).
        pose proof (ms_wrote _ _ _ _ _ _ _ _ _ Hm) as Hw. set (i3 := with_default_hop s2 i2) in *.
        assert (Hl3 : i_lifetime i3 = i_lifetime i) by (rewrite <- Hl2; unfold i3, with_default_hop; by destruct (add_hop s2 i2)).
        assert (Hn3 : now (fw_t s3) = now (fw_t s)) by (rewrite (sc_now _ _ (wr_core _ _ _ _ _ Hw)); simpl; by rewrite Ht2).
        assert (K4 : keep (now (fw_t s)) s3 s').
        { unfold forwards in Hfw. destruct (i_nexthop i3) as [g|].
          - case_decide; [|subst; apply keep_refl]. destruct Hfw as [b0 Hout]. eapply outgoing_satom in Hout; [|apply Hw|lia].
            eapply (satoms_keep b rej (now (fw_t s)) (fun _ => True)); [done|]. apply rtc_once. eexists. split; [exact Hout|]. by exists s3.
          - destruct Hfw as (p & inst & _ & Hr). eapply run_keep in Hr as (_ & K4 & _); [by rewrite <- Hn3|apply Hw| |pat]. intros j [= <-]. lia. }
        destruct (K4 k e' Hk) as (e4 & He4 & Hh4). destruct (wr_entry _ _ _ _ _ Hw) as [E1 E2]. rewrite E2 in He4. case_decide as Ek.
        2: { change (pit_at (fw_t s2) k = Some e4) in He4. rewrite Ht2, Hps, decide_False in He4 by done. eapply Hkept; [by apply Hun2|exact He4|done]. }
        injection He4 as <-. destruct (ms_timer _ _ _ _ _ _ _ _ _ Hm) as (ms & Hms & Htm). rewrite Ht2, Hn1 in Hms, Htm.
        apply last_expiry_spec in Hms as (m & Hm1 & Hm2 & Hm3). pose proof (ms_in _ _ _ _ _ _ _ _ _ Hm) as Hin. fold i3 in Hin. rewrite Ht2, Hn1 in Hin. rewrite Hin in Hm1, Hm2.
        change (pit_at (fw_t s2) (key_of i2) = Some e) in E1.
        destruct (entry_ok _ _ _ I2 E1) as [[N1 _ Hok _] _]. rewrite Ht2, Hn1 in Hok.
        pose proof (insert_in_ok f i3 (now (fw_t s)) (pe_in e) N1) as (N2 & Hfi & _). set (l' := insert_or_update_in f i3 (now (fw_t s)) (pe_in e)) in *.
        assert (Hold : forall g r, g <> f -> r ∈ l' -> fr_face (ir_rec r) = g -> in_record_of s (key_of i) g r).
        { intros g r Hg Hr Hgr. pose proof (elem_find_in _ _ N2 Hr) as Hx. rewrite Hgr, Hfi, decide_False in Hx by done. apply find_in_Some in Hx as [Hx _].
          rewrite Hee in Hx. rewrite <- Hk2. destruct (pit_at (fw_t s) (key_of i2)) as [e1|] eqn:E3; simpl in Hx; [by exists e1|by apply elem_of_nil in Hx]. }
        assert (Hnew : forall r, r ∈ l' -> fr_face (ir_rec r) = f -> fr_expiry (ir_rec r) = deadline s i).
        { intros r Hr Hgr. pose proof (elem_find_in _ _ N2 Hr) as Hx. rewrite Hgr, Hfi, decide_True in Hx by done. injection Hx as <-. simpl. rewrite ns_cap by lia. by rewrite Hl3. }
        assert (Hlast : last_deadline s f i (fr_expiry (ir_rec m))).
        { split; [|split].
          - pose proof (Hfi f) as Hx. rewrite decide_True in Hx by done. apply find_in_Some in Hx as [Hx Hxf]. rewrite <- (Hnew _ Hx Hxf). by apply Hm2.
          - intros g r Hg (e0 & He0 & Hr & Hgr). rewrite <- Hk2 in He0. rewrite He0 in Hee. simpl in Hee. subst e0.
            apply Hm2. pose proof (elem_find_in _ _ N1 Hr) as Hx. pose proof (Hfi g) as Hy. rewrite decide_False in Hy by done. rewrite Hgr in Hx. rewrite Hx in Hy. by apply find_in_Some in Hy as [Hy _].
          - destruct (decide (fr_face (ir_rec m) = f)) as [Hmf|Hmf]; [left; by apply Hnew|right]. exists (fr_face (ir_rec m)), m. split; [done|]. split; [by apply Hold|done]. }
        assert (Hup : (now (fw_t s) <= fr_expiry (ir_rec m) <= now (fw_t s) + 864000000 * 1000000)%Z).
        { destruct Hlast as (H1 & _ & H3). unfold deadline, MS in H1, H3. split; [lia|]. destruct H3 as [->|(g & r & Hg & (e0 & He0 & Hr & Hgr) & ->)]; [lia|].
          destruct (entry_ok _ _ _ I He0) as [[_ _ Hok0 _] _]. destruct (Hok0 r Hr) as (_ & _ & -> & Hren). unfold ms_ns, TEN_DAYS. lia. }
        destruct Hh4 as [Ht4 Hs4]. set (D := fr_expiry (ir_rec m)) in *. set (n := now (fw_t s)) in *.
        pose proof (Z.quot_pos (D - n) 1000000 ltac:(lia) ltac:(lia)) as Hq0. pose proof (Z.quot_rem (D - n) 1000000 ltac:(lia)) as Hqr.
        pose proof (Z.rem_bound_pos (D - n) 1000000 ltac:(lia) ltac:(lia)) as Hrb. rewrite <- Hm3 in Hqr, Hq0.
        assert (Hns : ns_of_ms (Z.max ms 0) = (ms * 1000000)%Z).
        { rewrite Z.max_l by lia. unfold ns_of_ms, wrap64, NS_PER_MS. rewrite Z.mod_small; lia. }
        apply (tc_interest _ _ _ _ f i (n + ms * 1000000)%Z D); [by apply Htake|intros Hb; destruct (Ht4 Hb) as [->|?]; [left; by rewrite Htm, Hns|by right]|done|unfold MS; lia|lia|].
        rewrite Hs4, (ms_sat _ _ _ _ _ _ _ _ _ Hm), Hee, Ek. by destruct (pit_at (fw_t s) (key_of i2)).
    - eapply data_cases in He as (fc & Hfc & Hc); [|exact W|done|done].
      assert (Hins : forall u s0 s1, inserted_data d u s0 s1 -> fw_t s1 = fw_t s0) by (by intros u s0 s1 (c & _ & -> & _)).
      assert (Hun : (takes_data s (EvData f d) k -> False) -> un).
      { intros Hno. split; [|split]; [by intros ? ? (? & _)|done|by intros (? & ? & ? & ? & _)]. }
      assert (Hmat : forall e, pit_at (fw_t s) k = Some e -> satisfies k d -> matching s d k).
      { intros e He Hs. exists e. split; [done|]. rewrite <- (proj2 (entry_ok _ _ _ I He)) in Hs. unfold satisfies, pe_key, key_of in Hs. simpl in Hs. by destruct (pe_interest e). }
      assert (Hkmat : ~ matching s d k -> keep (now (fw_t s)) s s' -> timer_move s (EvData f d) k e').
      { intros Hnm Hke. destruct (Hke k e' Hk) as (e & He & Hh). eapply Hkept; [|exact He|done]. apply Hun. intros (f0 & d0 & [= <- <-] & Hs & _). apply Hnm. by eapply Hmat. }
      assert (Hsc' : negb (fc_local fc) && is_localhost (d_name d) = false -> matching s d k -> takes_data s (EvData f d) k).
      { intros Hx (e0 & He0 & Hm). exists f, d. split; [done|]. split; [eapply satisfies_key; [exact (proj2 (entry_ok _ _ _ I He0))|exact Hm]|]. intros Hl%is_localhost_spec. rewrite Hl, andb_true_r in Hx. exists fc. split; [done|]. by destruct (fc_local fc). }
      destruct Hc as [Hl1 Hl2%is_localhost_spec ->|_ Hnm Hu|k1 e s1 s2 s3 Hsc He Hma Hi W2 Hr Hf|ks s1 s2 pend Hsc Hn _ Hks Hi Hl _ _ Hs].
      + apply Hkeep, keep_same; [|done]. apply Hun. intros (f0 & d0 & [= <- <-] & _ & Hx). destruct (Hx Hl2) as (fc' & ? & ?). congruence.
      + apply Hkmat; [apply Hnm|]. apply keep_same. cbv zeta in Hu. destruct (unsol_decide _ _); [by rewrite (Hins _ _ _ Hu)|by subst].
      + eapply received_keep in Hr as (I3 & K3 & C3); [|apply W2]. pose proof (Hins _ _ _ Hi) as Ht1. change (fw_t (got (Rx_data f d) inc_in_data s)) with (fw_t s) in Ht1.
        assert (Hn2 : now (fw_t s2) = now (fw_t s)) by (rewrite (sc_now _ _ (wr_core _ _ _ _ _ W2)); by rewrite Ht1).
        rewrite Hn2 in K3. apply finished_spec in Hf as (_ & _ & _ & _ & _ & _ & Hk3 & e3 & He3 & He3'). destruct (decide (k = k1)) as [->|Hne].
        * rewrite He3' in Hk. injection Hk as <-. destruct (K3 k1 e3 He3) as (e2 & He2 & Ht & _). rewrite (proj2 (wrote_at _ _ _ _ _ W2)) in He2. injection He2 as <-.
          apply tc_data; [|intros Hb; simpl; destruct (Ht Hb) as [->|[_ ->]]; [done|done]|done]. apply Hsc'; [done|]. by apply Hma.
        * pose proof Hk as Hk0. rewrite Hk3 in Hk by done. destruct (K3 k e' Hk) as (e2 & He2 & Hh). rewrite (wrote_other _ _ _ _ _ _ W2 Hne), Ht1 in He2. eapply Hkept; [|exact He2|done].
          apply Hun. intros (f0 & d0 & [= <- <-] & Hs & _). apply Hne, Hma. by eapply Hmat.
      + pose proof (Hins _ _ _ Hi) as Ht1. change (fw_t (got (Rx_data f d) inc_in_data s)) with (fw_t s) in Ht1. destruct Hi as (c & _ & _ & I1).
        destruct (sat_loop_keep _ _ _ _ _ I1 Hn Hl) as [L1 L2].
        assert (Ht2 : fw_t s' = fw_t s2).
        { set (l := List.filter (not_back (fw_faces s2) f) (face_order pend)) in Hs. clearbody l. clear -Hs. revert s2 Hs.
          induction l as [|g l IH]; intros s2 Hr; simpl in Hr; [by injection Hr as <-|].
          apply bind_Some in Hr as (s3 & [] & H1 & Hr). rewrite (IH s3 Hr). by apply out_data_one in H1 as [->|(fc & _ & _ & ->)]. }
        rewrite Ht2 in Hk. destruct (decide (k ∈ ks)) as [Hin|Hin].
        * destruct (L2 k e' Hin Hk) as [Ht Hsat]. apply tc_data; [|intros Hb; by rewrite Ht, Ht1|done].
          apply Hsc'; [done|]. by apply Hks.
        * rewrite L1, Ht1 in Hk by done. eapply Hkept; [|exact Hk|apply held_refl]. apply Hun. intros (f0 & d0 & [= <- <-] & Hs0 & _). apply Hin, Hks. by eapply Hmat.
    - eapply nack_cases in He as (fc & Hfc & Hc); [|done].
      assert (Hun : (takes_nack s (EvNack f i r) k -> False) -> un).
      { intros Hno. split; [|split]; [by intros ? ? (? & _)|by intros (? & ? & ? & _)|done]. }
      destruct Hc as [Hig ->|e rec s1 s2 p inst Hp2 He Hrec Hnon W1 H2 _ Hr].
      { apply Hkeep, keep_same; [|done]. apply Hun. intros (f0 & i0 & r0 & [= <- <- <-] & <- & (fc' & Hfc' & Hp) & (o & (e & He & Ho1 & Hof) & Hon) & _).
        destruct Hig as [Hig|Hig]; [congruence|]. eapply Hig; [exact He| |exact Hon]. destruct (entry_ok _ _ _ I He) as [[_ N2 _ _] _]. pose proof (elem_find_out _ _ N2 Ho1) as Hx. by rewrite Hof in Hx. }
      assert (H1 : keep (now (fw_t s)) s s1) by (eapply (keep_entry b rej _ (key_of i)); [exact (wr_entry _ _ _ _ _ W1)|split; [by left|done]]).
      assert (Hn1 : now (fw_t s1) = now (fw_t s)) by apply (wr_core _ _ _ _ _ W1).
      destruct (entry_ok _ _ _ I He) as [[_ N2 _ _] _]. destruct (out_nack_ok f (i_nonce i) r (pe_out e)) as [Hfaces Hy].
      destruct (has_pending_out (now (fw_t s)) (nacked f (i_nonce i) r e)) eqn:Ehp.
      + subst s2. eapply run_keep in Hr as (_ & K4 & _); [|apply W1|done|pat]. rewrite Hn1 in K4. apply Hkeep; [|by eapply keep_trans].
        apply Hun. intros (f0 & i0 & r0 & [= <- <- <-] & <- & _ & _ & Hall). unfold has_pending_out in Ehp. apply existsb_exists in Ehp as (o & Ho1%elem_of_list_In & [Ht%Z.leb_le Hno]%andb_prop).
        simpl in Ho1. assert (N3 : NoDup (rec_faces_out (out_nack f (i_nonce i) r (pe_out e)))) by (by rewrite Hfaces).
        pose proof (elem_find_out _ _ N3 Ho1) as Hx. rewrite Hy in Hx. case_decide as Eg.
        * rewrite Hrec in Hx. simpl in Hx. unfold set_incoming_nack in Hx. rewrite Hnon, N.eqb_refl in Hx. simpl in Hx. injection Hx as <-. done.
        * apply find_out_Some in Hx as [Hx _]. destruct (Hall (fr_face (or_rec o)) o Eg) as [Hz|Hz]; [by exists e|by destruct (or_nack o)|lia].
      + eapply run_keep in Hr as (_ & K4 & _); [|apply H2|done|pat]. rewrite (sc_now _ _ (wr_core _ _ _ _ _ H2)), Hn1 in K4. destruct (K4 k e' Hk) as (e2 & He2 & Ht & Hsat).
        destruct (wr_entry _ _ _ _ _ H2) as [E1 E2]. rewrite E2 in He2. case_decide as Ek.
        * injection He2 as <-. apply (tc_nack _ _ _ _ e); [|by subst k|intros Hb; by destruct (Ht Hb) as [->|[_ ->]]|exact Hsat]. exists f, i, r. split; [done|]. split; [done|]. split; [by exists fc|].
          split; [exists rec; split; [exists e; apply find_out_Some in Hrec as [? ?]; by rewrite Ek|done]|].
          intros g r0 Hg (e0 & He0 & Hr0 & Hgr). rewrite Ek, He in He0. injection He0 as <-.
          pose proof (elem_find_out _ _ N2 Hr0) as Hx. rewrite Hgr in Hx.
          specialize (Hy g). rewrite decide_False, Hx in Hy by done. apply find_out_Some in Hy as [Hy _].
          unfold has_pending_out in Ehp. destruct (or_nack r0) as [n0|] eqn:En; [by left|right].
          destruct (Z.lt_ge_cases (fr_expiry (or_rec r0)) (now (fw_t s))) as [?|Hge]; [done|]. exfalso. apply not_true_iff_false in Ehp. apply Ehp. apply existsb_exists. exists r0.
          split; [by apply elem_of_list_In|]. rewrite En, andb_true_r. by apply Z.leb_le.
        * destruct (H1 k e2 He2) as (e1 & He1 & Hh). eapply Hkept; [|exact He1|]; [|eapply held_trans; [exact Hh|done]].
          apply Hun. intros (f0 & i0 & r0 & [= <- <- <-] & Hkk & _). congruence.
    - apply timer_case in He as [e Hz]; [|done]. apply Hkeep; [by apply Hother|]. intros k0 e0. rewrite (fz_pits _ _ _ _ _ _ Hz). case_decide; [done|]. intros. exists e0. split; [done|apply held_refl].
    - simpl in He. eapply run_keep in He as (_ & K1 & _); [|done|done|pat]. apply Hkeep; [by apply Hother|done].
    - simpl in He. eapply (fib_add_case _ same_type _ _ _ W) in He as [->|(_ & _ & T & l & E & Hof & _ & _ & Hn & _)]; [apply Hkeep; [by apply Hother|by apply keep_same]| |done]. apply Hkeep; [by apply Hother|].
      destruct Hn as [->|(q & nh & Hn)]; [by apply env_keep|]. eapply keep_trans; [by apply env_keep|].
      destruct (only_fib_frame _ _ _ _ Hof) as (_ & _ & _ & _ & Hnow). rewrite <- Hnow. eapply new_hop_keep in Hn; [exact Hn|apply E].
    - eapply face_remove_case in He as [Hu _]; [|exact create_strategy|exact W|done]. apply Hkeep; [by apply Hother|]. intros k0 e0. rewrite (uf_pits _ _ _ Hu).
      destruct (pit_at (fw_t s) k0) as [e1|] eqn:E1; [|done]. intros [= <-]. exists e1. split; [done|]. split; [by left|done].
  Qed.
End timer.
