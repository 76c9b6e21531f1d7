(** Every out-record stands for an Interest that was sent *)
From stdpp Require Import gmap.
From Verif Require Import Lib Name_Model Name_Proof Packet_Model Nt_Model Nt_Spec Nt_Tree Tree_Model Tree_Proof Tab_Model Tab_Spec Tab_At Tab_Fib Tab_Pit Tab_Pit2 Tab_Meas Tab_Sc Tab_Clean Tab_Run Tab_Main Fw_Model Fw_Spec Fw_Inv Fw_Case Fw_Case2 Fw_Case3 Fw_Hist Fw_Acc Fw_Step.
From Verif Require Cs_Model Cs_Spec Cs_Main Cs_Run Dnl_Model.

Definition has_out (s : fw) (k : pit_key) (g : N) : Prop := exists r, out_record_of s k g r.
Definition outs (s s' : fw) : Prop :=
  exists l, added s s' l /\ forall k g, has_out s' k g -> has_out s k g \/ exists j, Tx_interest g j ∈ l /\ key_of j = k.
Lemma outs_refl s : outs s s.
Proof. exists []. split; [done|]. by left. Qed.
Lemma outs_trans s1 s2 s3 : outs s1 s2 -> outs s2 s3 -> outs s1 s3.
Proof.
  intros (l1 & H1 & H1') (l2 & H2 & H2'). exists (l2 ++ l1). unfold added in *. split; [by rewrite H2, H1, app_assoc|].
  intros k g [H|(j & Hj & Hk)]%H2'; [|right; exists j; split; [by apply elem_of_app; left|done]].
  apply H1' in H as [H|(j & Hj & Hk)]; [by left|]. right. exists j. split; [by apply elem_of_app; right|done].
Qed.
Lemma outs_sub s s' l : added s s' l -> (forall k g, has_out s' k g -> has_out s k g) -> outs s s'.
Proof. intros Hl H. exists l. split; [done|]. intros k g Hg. left. by apply H. Qed.
Lemma outs_same s s' l : added s s' l -> fw_t s' = fw_t s -> outs s s'.
Proof. intros Hl Ht. eapply outs_sub; [exact Hl|]. intros k g (r & e & He & Hr). rewrite Ht in He. by exists r, e. Qed.
Definition sub_out (e e' : pit_entry) : Prop := forall r', r' ∈ pe_out e' -> exists r, r ∈ pe_out e /\ fr_face (or_rec r) = fr_face (or_rec r').
Lemma sub_out_eq e e' : pe_out e' = pe_out e -> sub_out e e'.
Proof. intros H r'. rewrite H. intros Hr. by exists r'. Qed.
Lemma sub_out_del f e e' : pe_out e' = delete_out f (pe_out e) -> sub_out e e'.
Proof. intros H r'. rewrite H. intros Hr%delete_out_elem. by exists r'. Qed.
Lemma sub_out_like e e' : like e e' -> sub_out e e'.
Proof.
  intros L r' Hr'. pose proof (lk_out _ _ L) as H. apply elem_of_list_lookup in Hr' as [n Hn].
  destruct (Forall2_lookup_r _ _ _ _ _ H Hn) as (r & Hr & Hx). exists r. split; [by eapply elem_of_list_lookup_2|]. symmetry. apply Hx.
Qed.
Lemma outs_entry k e e' s s' l : added s s' l -> entry_to k e e' s s' -> sub_out e e' -> outs s s'.
Proof.
  intros Hl [E1 E2] Hs. eapply outs_sub; [exact Hl|]. intros k0 g (r' & e0 & He0 & Hr' & Hf). rewrite E2 in He0. case_decide as Ek.
  - injection He0 as <-. subst k0. destruct (Hs r' Hr') as (r & Hr & Hrf). exists r, e. split; [done|]. split; [done|congruence].
  - by exists r', e0.
Qed.
Lemma outs_wrote k e e' s s' : wrote k e e' s s' -> sub_out e e' -> outs s s'.
Proof. intros Hw. eapply (outs_entry _ _ _ _ _ []); [apply Hw|apply Hw]. Qed.
Lemma outs_like s s' : fw_log s' = fw_log s -> (forall k, option_Forall2 (fun e e' => sub_out e e') (pit_at (fw_t s) k) (pit_at (fw_t s') k)) -> outs s s'.
Proof.
  intros Hl H. apply (outs_sub _ _ []); [done|]. intros k g (r' & e' & He' & Hr' & Hf). specialize (H k). rewrite He' in H. inversion H as [e e0 Hs He|]; subst.
  destruct (Hs r' Hr') as (r & Hr & Hrf). exists r, e. split; [done|]. by split.
Qed.
Lemma satom_outs trig k a s s' : Inv s -> (forall i, trig = Some i -> key_of i = k) -> satom trig k a s s' -> outs s s'.
Proof.
  intros I Ht Ha. destruct Ha as [? C T E Hn Hlg Hc|e e' ? C T E L Hn Htm Hlg Hc|e e' ms ? C T E L Hn Htm Hlg Hc|e i j src nonce nd f fc -> C T Hs Hd Hj Hf Hh E Hn Hlg Hc|src nonce nd f ? C E Hlg Hc
    |e r d f0 f fc -> C T Hr Hm Hf Hlo E Hn Hlg Hc Hb|e r d f0 f fc ? C T Hr Hm Hf Hlo Hlo' E Hn Hlg Hc|e r f fc reason -> C T Hr Hf Hlo E Hn Hlg Hc].
  - apply (outs_sub _ _ []); [done|]. intros k0 g (r & e & He & Hr). rewrite E in He. by exists r, e.
  - eapply (outs_entry _ _ _ _ _ []); [done|exact E|by apply sub_out_like].
  - eapply (outs_entry _ _ _ _ _ []); [done|exact E|by apply sub_out_like].
  - exists [Tx_interest f j]. split; [done|]. destruct E as [E1 E2]. intros k0 g (r & e0 & He0 & Hr & Hrf). rewrite E2 in He0. case_decide as Ek; [|left; by exists r, e0].
    injection He0 as <-. subst k0. simpl in Hr. apply insert_out_elem in Hr as [Hr|Hr]; [left; by exists r, e|]. right. exists j. split; [apply elem_of_list_singleton; congruence|].
    rewrite (de_key _ _ Hd). destruct (entry_ok _ _ _ I E1) as [Hok Hk].
    destruct src as [| |g']; simpl in Hs; [by apply Ht|by injection Hs as <-|]. destruct (find_in g' (pe_in e)) as [r'|] eqn:Er; [|done]. injection Hs as <-. apply find_in_Some in Er as [Er _].
    rewrite <- Hk. apply (pk_in_ok _ _ Hok r' Er).
  - by apply (outs_same _ _ []).
  - eapply (outs_entry _ _ _ _ _ [_]); [exact Hlg|exact E|by apply sub_out_eq].
  - eapply (outs_entry _ _ _ _ _ []); [done|exact E|by apply sub_out_eq].
  - eapply (outs_entry _ _ _ _ _ [_]); [exact Hlg|exact E|by apply sub_out_eq].
Qed.
Lemma satoms_outs R K trig k s s' : Inv s -> (forall i, trig = Some i -> key_of i = k) -> rtc (allowed R K trig k) s s' -> outs s s'.
Proof.
  intros I Ht H. induction H as [s|s s1 s2 (a & Ha & _) H2 IH]; [apply outs_refl|]. eapply outs_trans; [by eapply satom_outs|]. apply IH. by eapply satom_inv.
Qed.
Lemma msteps_outs s s' : Inv s -> rtc mstep s s' -> outs s s'.
Proof.
  intros I H. induction H as [s|s s1 s2 Ha H2 IH]; [apply outs_refl|]. destruct Ha as [k a Ha|E].
  - eapply outs_trans; [eapply satom_outs; [exact I| |exact Ha]; done|]. apply IH. by eapply satom_inv.
  - eapply outs_trans; [|apply IH, E]. apply outs_like; [apply E|]. intros k. destruct (en_pits _ _ E k) as [e e' [L _]|]; constructor. by apply sub_out_like.
Qed.

Section out.
  Variable sort_nexthops : list nexthop -> list nexthop.
  Variable create_strategy : name -> create_result.
  Variable same_type : name -> name -> bool.
  Variable make_entry : name -> N -> Dnl_Model.fingerprint.
  Variable rand : nat -> nat.
  Variable face_order : list N -> list N.
  Variable strategies : name -> strategy.
  Hypothesis W : world_ok sort_nexthops same_type face_order.
  Notation event_fn := (fw_event sort_nexthops create_strategy same_type make_entry rand face_order strategies).

  Lemma finished_outs d f k clear s s' : finished make_entry rand d f k clear s s' -> outs s s'.
  Proof.
    intros H. apply finished_spec in H as (_ & _ & Hl & _ & _ & _ & Hk & e & He & He'). apply outs_like; [done|]. intros k0. destruct (decide (k0 = k)) as [->|Hne].
    - rewrite He, He'. constructor. apply (sub_out_del f). by destruct clear.
    - rewrite Hk by done. destruct (pit_at (fw_t s) k0); constructor. by apply sub_out_eq.
  Qed.
  Lemma loop_outs j g s : outs s (loop_out strategies j g s).
  Proof. unfold loop_out. destruct (loop_nacks _ _ _ _); [by apply (outs_same _ _ [Tx_nack g j NACK_DUPLICATE])|apply outs_refl]. Qed.

  Lemma event_outs s ev s' : Inv s -> ev_ok s ev -> event_fn ev s = Some (s', tt) -> outs s s'.
  Proof.
    intros I Ho He.
    assert (Hp : plain ev \/ ~ plain ev) by (destruct ev; ((left; done) || (right; by intros []))). destruct Hp as [Hp|Hp].
    { eapply msteps_outs; [exact I|]. by eapply other_cases. }
    destruct ev as [f i|f d|f i r|k|inst arg k|p f c|p f|p req|p|fc|fc id|f|l|p|h|o| | |d]; try (by destruct Hp).
    - pose proof Ho as (_ & Hl & _). eapply interest_cases in He as (fc & _ & Hc); [|done|done].
      set (s0 := got (Rx_interest f i) inc_in_interests s) in *. assert (H0 : outs s s0) by (by apply (outs_same _ _ [Rx_interest f i])).
      destruct Hc as [_ ->|_ _ _ ->|Hz _ Hp']; [by apply (outs_same _ _ [Rx_interest f i])|done|].
      destruct Hp' as [_ ->|i2 e new s1 _ Hi2 Hins Hp']; [eapply outs_trans; [exact H0|apply loop_outs]|]. fold s0 in Hins.
      assert (H1 : outs s s1).
      { eapply outs_trans; [exact H0|]. apply (outs_sub _ _ []); [apply Hins|]. intros k g (r & e0 & He0 & Hr & Hf). rewrite (ins_pits _ _ _ _ _ Hins) in He0. case_decide as Ek; [|by exists r, e0].
        injection He0 as <-. rewrite (ins_e _ _ _ _ _ Hins) in Hr. subst k. destruct (pit_at (fw_t s0) (key_of i2)) as [e1|] eqn:E1; simpl in Hr; [by exists r, e1|by apply elem_of_nil in Hr]. }
      destruct Hp' as [Hd ->|c d _ Hin Hcs I2 Hhit|s2 e3 s3 _ Hncs I2 Hm Hfw].
      + eapply outs_trans; [exact H1|apply loop_outs].
      + destruct Hhit as [(sc & Hw & Hs') _]. eapply outs_trans; [exact H1|].
        assert (H2 : outs s1 sc). { eapply (outs_trans s1 (set_cnt (inc_cs_hits (fw_cnt (set_cs c s1))) (set_cs c s1))); [by apply (outs_same _ _ [])|]. eapply outs_wrote; [exact Hw|by apply sub_out_eq]. }
        destruct (_ || _); subst s'; [|done]. eapply outs_trans; [exact H2|]. by apply (outs_same _ _ [Tx_data f d (i_token i2)]).
      + pose proof (ms_wrote _ _ _ _ _ _ _ _ _ Hm) as Hw. eapply (outs_trans s s1); [done|].
        eapply (outs_trans s1 (set_cnt (inc_cs_misses (fw_cnt s2)) s2)).
        { apply (outs_same _ _ []); (destruct Hncs as [[_ ->]|(_ & c & _ & ->)]; done). }
        eapply outs_trans; [eapply outs_wrote; [exact Hw|]; apply sub_out_eq, Hm|].
        eapply satoms_outs; [apply Hw| |eapply miss_satoms; [exact W| |exact Hm|exact Hfw]; subst i2; by apply i2_life]. intros j [= <-]. by destruct (i3_kept s2 i2) as (_ & _ & _ & _ & ->).
    - eapply data_cases in He as (fc & _ & Hc); [|exact W|done|done]. set (s0 := got (Rx_data f d) inc_in_data s) in *.
      assert (H0 : outs s s0) by (by apply (outs_same _ _ [Rx_data f d])).
      assert (Hins : forall u s0 s1, inserted_data d u s0 s1 -> outs s0 s1) by (intros u s1 s2 (c & _ & -> & _); by apply (outs_same _ _ [])).
      destruct Hc as [_ _ ->|_ _ Hu|k e s1 s2 s3 _ He _ Hi W2 Hr Hf|ks s1 s2 pend _ Hn _ Hks Hi Hl _ _ Hs]; [done|..].
      + cbv zeta in Hu. set (s1 := set_cnt _ _) in Hu. assert (H1 : outs s s1) by (by apply (outs_same _ _ [Rx_data f d])).
        destruct (unsol_decide _ _); [eapply outs_trans; [exact H1|by eapply Hins]|by subst].
      + eapply outs_trans; [exact H0|]. eapply outs_trans; [by eapply Hins|]. eapply outs_trans; [eapply outs_wrote; [exact W2|by apply sub_out_eq]|].
        assert (I2 := wr_inv _ _ _ _ _ W2). eapply outs_trans; [|by eapply finished_outs]. eapply msteps_outs; [exact I2|]. eapply received_msteps; [exact W|exact I2|exact Hr].
      + eapply outs_trans; [exact H0|]. pose proof (Hins _ _ _ Hi) as H1. eapply outs_trans; [exact H1|]. destruct Hi as (c & _ & Hs1 & I1).
        apply (outs_trans s1 s2).
        * clear -Hl I1 W. induction Hl as [|k ks e p inst s s1 s2 s3 s4 W1 He Hr Hf Hs IH]; [apply outs_refl|]. assert (I2 := wr_inv _ _ _ _ _ W1).
          assert (Hx : rtc (anyk None k) s1 s2) by (eapply run_satoms; [exact (wo_order _ _ _ W)|done|done|exact Hr]).
          eapply outs_trans; [eapply outs_wrote; [exact W1|by apply sub_out_eq]|]. eapply outs_trans; [eapply satoms_outs; [exact I2| |exact Hx]; done|].
          eapply outs_trans; [by eapply finished_outs|]. apply IH. by eapply (finished_spec _ _ _ _ _ _ s2 s3).
        * set (l := List.filter (not_back (fw_faces s2) f) (face_order pend)) in Hs. clearbody l. clear -Hs. revert s2 Hs.
          induction l as [|g l IH]; intros s2 Hr; simpl in Hr; [injection Hr as <-; apply outs_refl|].
          apply bind_Some in Hr as (s3 & [] & H1 & Hr). apply (outs_trans s2 s3); [|by apply IH]. apply out_data_one in H1 as [->|(fc & _ & _ & ->)]; [apply outs_refl|].
          by apply (outs_same _ _ [Tx_data g d None]).
    - eapply nack_cases in He as (fc & _ & Hc); [|done]. set (s0 := got (Rx_nack f i r) inc_in_nacks s) in *. assert (H0 : outs s s0) by (by apply (outs_same _ _ [Rx_nack f i r])).
      destruct Hc as [_ ->|e rec s1 s2 p inst _ He _ _ W1 H2 _ Hr]; [done|].
      assert (H1 : outs s s1).
      { eapply outs_trans; [exact H0|]. eapply outs_wrote; [exact W1|]. intros r' Hr'. simpl in Hr'.
        clear -Hr'. induction (pe_out e) as [|x l IH]; simpl in Hr'; [by apply elem_of_nil in Hr'|]. destruct (fr_face (or_rec x) =? f)%N.
        - apply elem_of_cons in Hr' as [->|Hr']; [exists x; split; [by left|]; unfold set_incoming_nack; by case_match|exists r'; split; [by right|done]].
        - apply elem_of_cons in Hr' as [->|Hr']; [exists x; split; [by left|done]|]. destruct (IH Hr') as (r0 & ? & ?). exists r0. split; [by right|done]. }
      assert (I2 : Inv s2 /\ outs s1 s2).
      { destruct (has_pending_out _ _); [subst; split; [apply W1|apply outs_refl]|]. split; [apply H2|]. eapply outs_wrote; [exact H2|by apply sub_out_eq]. }
      destruct I2 as [I2 A2]. assert (Hx : rtc (anyk None (key_of i)) s2 s') by (eapply run_satoms; [exact (wo_order _ _ _ W)|done|done|exact Hr]).
      eapply outs_trans; [exact H1|]. eapply outs_trans; [exact A2|]. eapply satoms_outs; [exact I2| |exact Hx]. done.
    - apply timer_case in He as [e Hz]; [|done]. apply (outs_sub _ _ []); [apply Hz|]. intros k0 g (r & e0 & He0 & Hr). rewrite (fz_pits _ _ _ _ _ _ Hz) in He0. case_decide; [done|]. by exists r, e0.
    - eapply face_remove_case in He as [Hu _]; [|exact create_strategy|exact W|done]. destruct (uf_eq _ _ _ Hu) as [T HT]. apply (outs_sub _ _ []); [by subst s'|].
      intros k0 g (r & e0 & He0 & Hr & Hf). rewrite (uf_pits _ _ _ Hu) in He0.
      destruct (pit_at (fw_t s) k0) as [e1|] eqn:E1; [|done]. injection He0 as <-. simpl in Hr. exists r, e1. split; [done|]. split; [by eapply delete_out_elem|done].
  Qed.
End out.
