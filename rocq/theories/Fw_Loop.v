(** What a looping Interest is answered with *)
From stdpp Require Import gmap.
From Verif Require Import Lib Name_Model Packet_Model Nt_Model Nt_Spec Tree_Model Tab_Model Tab_Spec Tab_At Tab_Sc Tab_Pit Fw_Model Fw_Spec Fw_Inv Fw_Case Fw_Case2 Fw_Case3 Fw_Hist Fw_Acc Fw_Step Fw_Out Fw_Main Fw_Data.
From Verif Require Cs_Model Cs_Spec Dnl_Model.

Section loop.
  Variable sort_nexthops : list nexthop -> list nexthop.
  Variable create_strategy : name -> create_result.
  Variable same_type : name -> name -> bool.
  Variable make_entry : name -> N -> Dnl_Model.fingerprint.
  Variable rand : nat -> nat.
  Variable face_order : list N -> list N.
  Variable strategies : name -> strategy.
  Notation step := (fw_step sort_nexthops create_strategy same_type make_entry rand face_order strategies).
  Hypothesis W : world_ok sort_nexthops same_type face_order.

  Lemma effective_same n s s1 : Inv s -> Inv s1 -> (forall m, sc_at (fw_t s1) m = sc_at (fw_t s) m) -> forall p inst, governs (fun m => sc_at (fw_t s) m) n p inst -> effective n (fw_t s1) = Some (p, inst).
  Proof.
    intros I I1 H p inst [(H1 & H2 & H3) H4]. apply effective_ok; [apply I1|]. split; [|by rewrite H]. split; [done|]. split; [by rewrite H|]. intros q Hq Hs. apply H3; [done|]. by rewrite <- H.
  Qed.
  Lemma loop_exact s f i s' p inst : Inv s -> ev_ok s (EvInterest f i) -> step s (EvInterest f i) = Some s' ->
    i_hop i <> Some 0%N -> (localhost (i_name i) -> local_face s f) ->
    Dnl_Model.dnl_has make_entry (fw_dnl s) (i_name i) (i_nonce i) = true \/ looping s f i ->
    governs (fun m => sc_at (fw_t s) m) (i_name i) p inst ->
    (p2p_face s f -> st_loop_nack (strategies inst) = true ->
       exists j, one_hop i j /\ i_nonce j = i_nonce i /\ i_token j = i_token i /\ added s s' [Tx_nack f j NACK_DUPLICATE; Rx_interest f i]) /\
    (~ p2p_face s f \/ st_loop_nack (strategies inst) = false -> added s s' [Rx_interest f i]).
  Proof.
    intros I Ho H%step_event Hhop Hsc Hloop Hg. simpl in H. pose proof Ho as (_ & Hlife & _). eapply interest_cases in H as (fc & Hf & Hc); [|done|done].
    destruct Hc as [Hz _|_ Hloc Hn%is_localhost_spec _|Hz _ Hp']; [done|destruct (Hsc Hn) as (fc' & ? & ?); congruence|].
    assert (Hp2p : is_p2p fc = true <-> p2p_face s f).
    { split; [intros Hx; exists fc; split; [done|]; unfold is_p2p in Hx; by destruct (fc_link fc)|]. intros (fc' & Hf' & Hl). rewrite Hf in Hf'. injection Hf' as <-. unfold is_p2p. by rewrite Hl. }
    assert (Hend : forall j s1, one_hop i j -> i_nonce j = i_nonce i -> i_token j = i_token i -> fw_log s1 = Rx_interest f i :: fw_log s -> fw_faces s1 = fw_faces s -> effective (i_name j) (fw_t s1) = Some (p, inst) ->
      s' = loop_out strategies j f s1 ->
      (p2p_face s f -> st_loop_nack (strategies inst) = true ->
         exists j, one_hop i j /\ i_nonce j = i_nonce i /\ i_token j = i_token i /\ added s s' [Tx_nack f j NACK_DUPLICATE; Rx_interest f i]) /\
      (~ p2p_face s f \/ st_loop_nack (strategies inst) = false -> added s s' [Rx_interest f i])).
    { intros j s1 Hj Hno Htok Hlog Hfc He ->. unfold loop_out, loop_nacks. rewrite Hfc, Hf, He. split.
      - intros Hp%Hp2p Hn. rewrite Hp, Hn. exists j. do 3 (split; [done|]). unfold added. simpl. by rewrite Hlog.
      - intros Hor. assert (is_p2p fc && st_loop_nack (strategies inst) = false) as ->; [|unfold added; by rewrite Hlog].
        destruct Hor as [Hor| ->]; [|by rewrite andb_false_r]. destruct (is_p2p fc); [|done]. exfalso. apply Hor. by apply Hp2p. }
    pose proof (one_hop_dec i Hz) as Hd. assert (Hname : forall j, one_hop i j -> i_name j = i_name i) by (intros j Hj; by rewrite (one_hop_name _ _ Hj)).
    destruct Hp' as [_ Hs'|i2 e new s1 Hdnl Hi2 Hins Hp'].
    - eapply Hend; [exact Hd|..|exact Hs']; try done; [unfold dec_hop; by destruct (i_hop i)|unfold dec_hop; by destruct (i_hop i)|]. rewrite (Hname _ Hd). simpl. by apply (effective_same _ s s).
    - destruct Hloop as [?|Hloop]; [congruence|]. assert (Hk2 : key_of i2 = key_of i) by (subst i2; by apply one_hop_i2).
      destruct (i2_kept (fw_regions s) i) as (Htok2 & _ & Hno2 & _). rewrite <- Hi2 in Hno2, Htok2.
      assert (He : pit_at (fw_t s) (key_of i) = Some e).
      { pose proof (ins_e _ _ _ _ _ Hins) as He. rewrite Hk2 in He. change (fw_t (got (Rx_interest f i) inc_in_interests s)) with (fw_t s) in He.
        destruct (pit_at (fw_t s) (key_of i)) as [e'|] eqn:E; [by rewrite He|]. destruct Hloop as [[(g & r & (e' & He' & _) & _)|(g & r & (e' & He' & _) & _)] _]; congruence. }
      assert (Hdup : is_dup fc e (i_nonce i2) f = true) by (rewrite Hno2; by eapply is_dup_spec).
      destruct Hp' as [_ Hs'|c d Hd' _ _ _ _|s2 e3 s3 Hd' _ _ _ _]; [|congruence|congruence].
      assert (Hd2 : one_hop i i2) by (subst i2; by apply one_hop_strip).
      eapply (Hend i2 s1); [done..|by rewrite (ins_log _ _ _ _ _ Hins)|by rewrite (sc_faces _ _ (ins_core _ _ _ _ _ Hins))| |done].
      rewrite (Hname _ Hd2). apply (effective_same _ s s1); [done|apply Hins| |done]. intros m. by rewrite (sc_sc _ _ (ins_core _ _ _ _ _ Hins)).
  Qed.
End loop.
