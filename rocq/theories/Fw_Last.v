(** Only its expiry timer removes a PIT entry *)
From stdpp Require Import gmap.
From Verif Require Import Lib Name_Model Name_Proof Packet_Model Nt_Model Nt_Spec Nt_Tree Tree_Model Tree_Proof Tab_Model Tab_Spec Tab_At Tab_Fib Tab_Pit Tab_Pit2 Tab_Meas Tab_Sc Tab_Clean Tab_Run Tab_Main Fw_Model Fw_Spec Fw_Inv Fw_Case Fw_Case2 Fw_Case3 Fw_Hist Fw_Acc Fw_Step.
From Verif Require Cs_Model Cs_Spec Cs_Main Cs_Run Dnl_Model.

Definition lasts (k : pit_key) (s s' : fw) : Prop := is_Some (pit_at (fw_t s) k) -> is_Some (pit_at (fw_t s') k).
Lemma lasts_trans k s1 s2 s3 : lasts k s1 s2 -> lasts k s2 s3 -> lasts k s1 s3.
Proof. unfold lasts. auto. Qed.
Lemma lasts_same k s s' : fw_t s' = fw_t s -> lasts k s s'.
Proof. intros H. unfold lasts. by rewrite H. Qed.
Lemma lasts_wrote k0 k e e' s s' : wrote k e e' s s' -> lasts k0 s s'.
Proof. intros Hw H. destruct (wr_entry _ _ _ _ _ Hw) as [E1 E2]. rewrite E2. case_decide; [by eexists|done]. Qed.
Lemma satoms_lasts k0 R K trig k s s' : Inv s -> rtc (allowed R K trig k) s s' -> lasts k0 s s'.
Proof.
  intros I H [e He]. destruct (satoms_entry _ _ _ _ _ _ I H) as (A1 & _ & A3). destruct (decide (k0 = k)) as [->|Hne]; [|rewrite A1 by done; by exists e].
  destruct (A3 e He) as (e' & He' & _). by exists e'.
Qed.
Lemma msteps_lasts k s s' : Inv s -> rtc mstep s s' -> lasts k s s'.
Proof.
  intros I H. induction H as [s|s s1 s2 Ha H2 IH]; [by intros H|]. destruct Ha as [k0 a Ha|E].
  - eapply (lasts_trans k s s1); [|apply IH; by eapply satom_inv]. intros [e He]. destruct (satom_entry _ _ _ _ _ I Ha) as (A1 & _ & A3).
    destruct (decide (k = k0)) as [->|Hne]; [|rewrite A1 by done; by exists e]. destruct (A3 e He) as (e' & He' & _). by exists e'.
  - eapply (lasts_trans k s s1); [|apply IH, E]. intros [e He]. pose proof (en_pits _ _ E k) as Hx. rewrite He in Hx. inversion Hx. by eexists.
Qed.

Section last.
  Variable sort_nexthops : list nexthop -> list nexthop.
  Variable create_strategy : name -> create_result.
  Variable same_type : name -> name -> bool.
  Variable make_entry : name -> N -> Dnl_Model.fingerprint.
  Variable rand : nat -> nat.
  Variable face_order : list N -> list N.
  Variable strategies : name -> strategy.
  Hypothesis W : world_ok sort_nexthops same_type face_order.
  Notation event_fn := (fw_event sort_nexthops create_strategy same_type make_entry rand face_order strategies).

  Lemma finished_lasts k0 d f k clear s s' : finished make_entry rand d f k clear s s' -> lasts k0 s s'.
  Proof.
    intros H Hs. apply finished_spec in H as (_ & _ & Hl & _ & _ & _ & Hk & e & He & He'). destruct (decide (k0 = k)) as [->|Hne]; [by eexists|by rewrite Hk].
  Qed.
  Lemma loop_lasts k j g s : lasts k s (loop_out strategies j g s).
  Proof. apply lasts_same. unfold loop_out. by destruct (loop_nacks _ _ _ _). Qed.

  Lemma event_lasts k s ev s' : Inv s -> ev_ok s ev -> ev <> EvPitTimer k -> event_fn ev s = Some (s', tt) -> lasts k s s'.
  Proof.
    intros I Ho Hnt He.
    assert (Hp : plain ev \/ ~ plain ev) by (destruct ev; ((left; done) || (right; by intros []))). destruct Hp as [Hp|Hp].
    { eapply msteps_lasts; [exact I|]. by eapply other_cases. }
    destruct ev as [f i|f d|f i r|k1|inst arg k1|p f c|p f|p req|p|fc|fc id|f|l|p|h|o| | |d]; try (by destruct Hp).
    - pose proof Ho as (_ & Hl & _). eapply interest_cases in He as (fc & _ & Hc); [|done|done].
      set (s0 := got (Rx_interest f i) inc_in_interests s) in *. assert (H0 : lasts k s s0) by (by apply lasts_same).
      destruct Hc as [_ ->|_ _ _ ->|Hz _ Hp']; [by apply lasts_same|done|].
      destruct Hp' as [_ ->|i2 e new s1 _ Hi2 Hins Hp']; [eapply lasts_trans; [exact H0|apply loop_lasts]|]. fold s0 in Hins.
      assert (H1 : lasts k s s1).
      { intros Hs. rewrite (ins_pits _ _ _ _ _ Hins). case_decide; [by eexists|done]. }
      destruct Hp' as [Hd ->|c d _ Hin Hcs I2 Hhit|s2 e3 s3 _ Hncs I2 Hm Hfw].
      + eapply lasts_trans; [exact H1|apply loop_lasts].
      + destruct Hhit as [(sc & Hw & Hs') _]. eapply lasts_trans; [exact H1|].
        assert (H2 : lasts k s1 sc). { eapply (lasts_trans k s1 (set_cnt (inc_cs_hits (fw_cnt (set_cs c s1))) (set_cs c s1))); [by apply lasts_same|]. eapply lasts_wrote. exact Hw. }
        destruct (_ || _); subst s'; [|done]. eapply lasts_trans; [exact H2|]. by apply lasts_same.
      + pose proof (ms_wrote _ _ _ _ _ _ _ _ _ Hm) as Hw. eapply (lasts_trans k s s1); [done|].
        eapply (lasts_trans k s1 (set_cnt (inc_cs_misses (fw_cnt s2)) s2)).
        { apply lasts_same; (destruct Hncs as [[_ ->]|(_ & c & _ & ->)]; done). }
        eapply lasts_trans; [eapply lasts_wrote; exact Hw|].
        eapply satoms_lasts; [apply Hw|]. eapply miss_satoms; [exact W| |exact Hm|exact Hfw]. subst i2. by apply i2_life.
    - eapply data_cases in He as (fc & _ & Hc); [|exact W|done|done]. set (s0 := got (Rx_data f d) inc_in_data s) in *.
      assert (H0 : lasts k s s0) by (by apply lasts_same).
      assert (Hins : forall u s0 s1, inserted_data d u s0 s1 -> lasts k s0 s1) by (intros u s1 s2 (c & _ & -> & _); by apply lasts_same).
      destruct Hc as [_ _ ->|_ _ Hu|k1 e s1 s2 s3 _ He _ Hi W2 Hr Hf|ks s1 s2 pend _ Hn _ Hks Hi Hl _ _ Hs]; [done|..].
      + cbv zeta in Hu. set (s1 := set_cnt _ _) in Hu. assert (H1 : lasts k s s1) by (by apply lasts_same).
        destruct (unsol_decide _ _); [eapply lasts_trans; [exact H1|by eapply Hins]|by subst].
      + eapply lasts_trans; [exact H0|]. eapply lasts_trans; [by eapply Hins|]. eapply lasts_trans; [eapply lasts_wrote; exact W2|].
        assert (I2 := wr_inv _ _ _ _ _ W2). eapply lasts_trans; [|by eapply finished_lasts]. eapply msteps_lasts; [exact I2|]. eapply received_msteps; [exact W|exact I2|exact Hr].
      + eapply lasts_trans; [exact H0|]. pose proof (Hins _ _ _ Hi) as H1. eapply lasts_trans; [exact H1|]. destruct Hi as (c & _ & Hs1 & I1).
        apply (lasts_trans k s1 s2).
        * clear -Hl I1 W. induction Hl as [|k1 ks e p inst s s1 s2 s3 s4 W1 He Hr Hf Hs IH]; [by apply lasts_same|]. assert (I2 := wr_inv _ _ _ _ _ W1).
          assert (Hx : rtc (anyk None k1) s1 s2) by (eapply run_satoms; [exact (wo_order _ _ _ W)|done|done|exact Hr]).
          eapply lasts_trans; [eapply lasts_wrote; exact W1|]. eapply lasts_trans; [eapply satoms_lasts; [exact I2|exact Hx]|].
          eapply lasts_trans; [by eapply finished_lasts|]. apply IH. by eapply (finished_spec _ _ _ _ _ _ s2 s3).
        * set (l := List.filter (not_back (fw_faces s2) f) (face_order pend)) in Hs. clearbody l. clear -Hs. revert s2 Hs.
          induction l as [|g l IH]; intros s2 Hr; simpl in Hr; [injection Hr as <-; by apply lasts_same|].
          apply bind_Some in Hr as (s3 & [] & H1 & Hr). apply (lasts_trans k s2 s3); [|by apply IH]. apply out_data_one in H1 as [->|(fc & _ & _ & ->)]; by apply lasts_same.
    - eapply nack_cases in He as (fc & _ & Hc); [|done]. set (s0 := got (Rx_nack f i r) inc_in_nacks s) in *. assert (H0 : lasts k s s0) by (by apply lasts_same).
      destruct Hc as [_ ->|e rec s1 s2 p inst _ He _ _ W1 H2 _ Hr]; [done|].
      assert (I2 : Inv s2 /\ lasts k s1 s2).
      { destruct (has_pending_out _ _); [subst; split; [apply W1|by apply lasts_same]|]. split; [apply H2|]. eapply lasts_wrote. exact H2. }
      destruct I2 as [I2 A2]. assert (Hx : rtc (anyk None (key_of i)) s2 s') by (eapply run_satoms; [exact (wo_order _ _ _ W)|done|done|exact Hr]).
      eapply lasts_trans; [exact H0|]. eapply lasts_trans; [eapply lasts_wrote; exact W1|]. eapply lasts_trans; [exact A2|]. eapply satoms_lasts; [exact I2|exact Hx].
    - apply timer_case in He as [e Hz]; [|done]. intros Hs. rewrite (fz_pits _ _ _ _ _ _ Hz). rewrite decide_False by congruence. done.
    - eapply face_remove_case in He as [Hu _]; [|exact create_strategy|exact W|done]. intros [e Hs]. rewrite (uf_pits _ _ _ Hu), Hs. by eexists.
  Qed.
  Lemma event_only_timer k s ev s' : Inv s -> ev_ok s ev -> event_fn ev s = Some (s', tt) -> is_Some (pit_at (fw_t s) k) -> pit_at (fw_t s') k = None -> ev = EvPitTimer k.
  Proof.
    intros I Ho He Hs Hn. assert (Hd : ev = EvPitTimer k \/ ev <> EvPitTimer k).
    { destruct ev as [| | |k1| | | | | | | | | | | | | | |]; try (by right). destruct (decide (k1 = k)) as [->|]; [by left|right; congruence]. }
    destruct Hd as [|Hd]; [done|]. destruct (event_lasts k s ev s' I Ho Hd He Hs). congruence.
  Qed.
End last.
