(** What Data does when it arrives: who is sent it *)
From stdpp Require Import gmap.
From Verif Require Import Lib Name_Model Packet_Model Nt_Model Nt_Spec Tree_Model Tab_Model Tab_Spec Tab_At Tab_Pit Fw_Model Fw_Spec Fw_Inv Fw_Case Fw_Case2 Fw_Case3 Fw_Hist Fw_Acc Fw_Step Fw_Out Fw_Main.
From Verif Require Cs_Model Cs_Spec Cs_Main Dnl_Model.

Lemma satisfies_iff e d k : pe_key e = k -> (matches_data (pe_interest e) d = true <-> satisfies k d).
Proof. intros <-. unfold satisfies, pe_key, key_of. simpl. by destruct (pe_interest e). Qed.
Lemma scope_flag fc d : negb (fc_local fc) && is_localhost (d_name d) = false <-> (localhost (d_name d) -> fc_local fc = true).
Proof.
  rewrite <- is_localhost_spec. destruct (fc_local fc), (is_localhost (d_name d)); simpl; split; try done. intros H. by specialize (H eq_refl).
Qed.
Lemma replies_elem F d e l x : x ∈ replies F d e l <->
  exists g fc r, g ∈ l /\ F !! g = Some fc /\ find_in g (pe_in e) = Some r /\ (localhost (d_name d) -> fc_local fc = true) /\ x = Tx_data g d (i_token (ir_interest r)).
Proof.
  induction l as [|g l IH]; simpl.
  { split; [by intros ?%elem_of_nil|]. intros (g & fc & r & Hg & _). by apply elem_of_nil in Hg. }
  rewrite elem_of_app, IH. split.
  - intros [(g' & fc & r & Hg & H)|H]; [exists g', fc, r; split; [by right|done]|]. destruct (F !! g) as [fc|] eqn:Ef; [|by apply elem_of_nil in H]. destruct (find_in g (pe_in e)) as [r|] eqn:Er; [|by apply elem_of_nil in H].
    destruct (negb (fc_local fc) && is_localhost (d_name d)) eqn:Es; [by apply elem_of_nil in H|]. apply elem_of_list_singleton in H as ->. exists g, fc, r. split; [by left|].
    split; [done|]. split; [done|]. split; [by apply scope_flag|done].
  - intros (g' & fc & r & [->|Hg]%elem_of_cons & Hf & Hr & Hs & ->).
    + right. rewrite Hf, Hr. apply scope_flag in Hs. rewrite Hs. by left.
    + left. by exists g', fc, r.
Qed.
Lemma replies_nodup F d e l : NoDup l -> NoDup (omap data_to (replies F d e l)).
Proof.
  induction l as [|g l IH]; intros H; simpl; [constructor|]. apply NoDup_cons in H as [Hg H]. rewrite omap_app. apply NoDup_app. split; [by apply IH|].
  destruct (F !! g) as [fc|]; [|split; [intros ? _ ?%elem_of_nil; done|constructor]]. destruct (find_in g (pe_in e)) as [r|]; [|split; [intros ? _ ?%elem_of_nil; done|constructor]].
  destruct (_ && _); [split; [intros ? _ ?%elem_of_nil; done|constructor]|]. simpl. split; [|apply NoDup_singleton].
  intros g' Hg' ->%elem_of_list_singleton. apply elem_of_list_omap in Hg' as (x & (g1 & fc1 & r1 & Hg1 & _ & _ & _ & ->)%replies_elem & [= ->]). done.
Qed.
Lemma each_out_exact d l : forall s s', each l (fun g => bind (on_outgoing_data d None g) (fun _ => ret tt)) s = Some (s', tt) -> NoDup l ->
  exists l', added s s' l' /\ NoDup (omap data_to l') /\ forall x, x ∈ l' <->
    exists g fc, g ∈ l /\ fw_faces s !! g = Some fc /\ (localhost (d_name d) -> fc_local fc = true) /\ x = Tx_data g d None.
Proof.
  induction l as [|g l IH]; intros s s' Hr Hn; simpl in Hr.
  { injection Hr as <-. exists []. split; [done|]. split; [constructor|]. intros x. split; [by intros ?%elem_of_nil|]. intros (g & fc & Hg & _). by apply elem_of_nil in Hg. }
  apply NoDup_cons in Hn as [Hg Hn]. apply bind_Some in Hr as (s1 & [] & H1 & Hr). apply bind_Some in H1 as (s2 & b & H1 & [= <-]).
  unfold on_outgoing_data in H1. apply bind_Some in H1 as (s0 & s0' & [= <- <-] & H1).
  destruct (fw_faces s !! g) as [fc|] eqn:Hfc.
  2: { injection H1 as <- _. destruct (IH s s' Hr Hn) as (l' & Hl & Hn' & Hx). exists l'. split; [done|]. split; [done|]. intros x. rewrite Hx. split.
    + intros (g' & fc' & Hg' & H). exists g', fc'. split; [by right|done].
    + intros (g' & fc' & [->|Hg']%elem_of_cons & Hf' & Hs' & ->); [congruence|by exists g', fc']. }
  destruct (negb (fc_local fc) && is_localhost (d_name d)) eqn:Es.
  - injection H1 as <- _. destruct (IH s s' Hr Hn) as (l' & Hl & Hn' & Hx). exists l'. split; [done|]. split; [done|]. intros x. rewrite Hx. split.
    + intros (g' & fc' & Hg' & H). exists g', fc'. split; [by right|done].
    + intros (g' & fc' & [->|Hg']%elem_of_cons & Hf' & Hs' & ->); [|by exists g', fc']. rewrite Hfc in Hf'. injection Hf' as <-. apply scope_flag in Hs'. congruence.
  - apply bind_Some in H1 as (s3 & [] & H3 & H1). assert (Hs3 : fw_log s2 = Tx_data g d None :: fw_log s /\ fw_faces s2 = fw_faces s).
    { unfold emit, put in H3. injection H3 as <-. apply bind_Some in H1 as (s4 & [] & H4 & [= <- _]). unfold count, put in H4. by injection H4 as <-. }
    destruct Hs3 as [Hlog Hfaces]. destruct (IH s2 s' Hr Hn) as (l' & Hl & Hn' & Hx). rewrite Hfaces in Hx.
    exists (l' ++ [Tx_data g d None]). split; [unfold added in *; by rewrite Hl, Hlog, <- app_assoc|]. split.
    + rewrite omap_app. simpl. apply NoDup_app. split; [done|]. split; [|apply NoDup_singleton].
      intros g' Hg' ->%elem_of_list_singleton. apply elem_of_list_omap in Hg' as (x & (g1 & fc1 & Hg1 & _ & _ & ->)%Hx & [= ->]). done.
    + intros x. rewrite elem_of_app, Hx, elem_of_list_singleton. split.
      * intros [(g' & fc' & Hg' & H)| ->]; [exists g', fc'; split; [by right|done]|]. exists g, fc. split; [by left|]. split; [done|]. split; [by apply scope_flag|done].
      * intros (g' & fc' & [->|Hg']%elem_of_cons & Hf' & Hs' & ->); [by right|]. left. by exists g', fc'.
Qed.

Section data.
  Variable sort_nexthops : list nexthop -> list nexthop.
  Variable create_strategy : name -> create_result.
  Variable same_type : name -> name -> bool.
  Variable make_entry : name -> N -> Dnl_Model.fingerprint.
  Variable rand : nat -> nat.
  Variable face_order : list N -> list N.
  Variable strategies : name -> strategy.
  Hypothesis W : world_ok sort_nexthops same_type face_order.
  Notation step := (fw_step sort_nexthops create_strategy same_type make_entry rand face_order strategies).

  Lemma sat_loop_log d f ks s s' : (forall inst, default_data (strategies inst)) -> Inv s -> sat_loop make_entry rand face_order strategies d f ks s s' -> fw_log s' = fw_log s.
  Proof.
    intros Hp I H. induction H as [s|k ks e p inst s s1 s2 s3 s4 H1 H2 H3 H4 H5 IH]; [done|].
    assert (I1 : Inv s1) by apply H1. eapply run_quiet in H3; [|exact W|done|done|apply (proj2 (Hp inst))].
    pose proof (satoms_quiet _ _ _ _ _ H3) as (_ & Hl & _). destruct (finished_spec _ _ _ _ _ _ _ _ H4) as (F1 & _ & F3 & _).
    rewrite (IH F1), F3, Hl. apply H1.
  Qed.
  Lemma not_back_spec F f g fc : F !! g = Some fc -> not_back F f g = true <-> (g = f -> fc_link fc = LINK_AD_HOC).
  Proof.
    intros Hg. unfold not_back. rewrite Hg. destruct (N.eqb_spec g f) as [->|Hn]; simpl; [|done]. rewrite negb_involutive. unfold is_adhoc.
    destruct (fc_link fc); split; try done; intros H; by specialize (H eq_refl).
  Qed.
  (** [token_ok]: what the PIT token of an answer to [g] is *)
  Lemma data_all s f d s' l : (forall inst, default_data (strategies inst)) -> Inv s -> ev_ok s (EvData f d) -> (localhost (d_name d) -> local_face s f) ->
    step s (EvData f d) = Some s' -> added s s' l ->
    exists txs, l = txs ++ [Rx_data f d] /\ NoDup (omap data_to txs) /\ (forall x, x ∈ txs -> exists g tok, x = Tx_data g d tok /\ due s f d g) /\
      (forall g, due s f d g -> exists tok, Tx_data g d tok ∈ txs) /\
      (forall k0, (forall k e, pit_at (fw_t s) k = Some e -> satisfies k d -> k = k0) ->
         forall g tok, Tx_data g d tok ∈ txs -> exists r, in_record_of s k0 g r /\ tok = i_token (ir_interest r)).
  Proof.
    intros Hp I Ho Hsc H%step_event Hl. simpl in H. eapply data_cases in H as (fc & Hf & Hc); [|exact W|done|done].
    assert (Hkey : forall k e, pit_at (fw_t s) k = Some e -> matches_data (pe_interest e) d = true <-> satisfies k d).
    { intros k e He. apply satisfies_iff. by destruct (entry_ok _ _ _ I He). }
    assert (Hface : forall k g r, in_record_of s k g r -> exists fg, fw_faces s !! g = Some fg).
    { intros k g r (e & He & Hr & <-). by apply (ef_in _ _ (iv_pit _ I k e He)). }
    assert (Hdue : forall g, due s f d g <-> exists k e r fg, pit_at (fw_t s) k = Some e /\ matches_data (pe_interest e) d = true /\ find_in g (pe_in e) = Some r /\
      (now (fw_t s) < fr_expiry (ir_rec r))%Z /\ fw_faces s !! g = Some fg /\ (g = f -> fc_link fg = LINK_AD_HOC) /\ (localhost (d_name d) -> fc_local fg = true)).
    { intros g. split.
      - intros ((k & r & Hr & Hs & Ht) & Hb & Hlo). destruct (Hface _ _ _ Hr) as [fg Hg]. destruct Hr as (e & He & Hr & Hgr). exists k, e, r, fg. split; [done|]. split; [by apply (Hkey k)|].
        split; [rewrite <- Hgr; apply elem_find_in; [|done]; by destruct (entry_ok _ _ _ I He) as [[? _ _ _] _]|]. split; [done|]. split; [done|]. split.
        + intros Hb'%Hb. destruct Hb' as (fg' & ? & ?). congruence.
        + intros Hb'%Hlo. destruct Hb' as (fg' & ? & ?). congruence.
      - intros (k & e & r & fg & He & Hm & [Hr Hgr]%find_in_Some & Ht & Hg & Hb & Hlo). split; [|split].
        + exists k, r. split; [by exists e|]. split; [by apply (Hkey k e)|done].
        + intros Hb'. exists fg. split; [done|by apply Hb].
        + intros Hb'. exists fg. split; [done|by apply Hlo]. }
    assert (Hnil : fw_log s' = Rx_data f d :: fw_log s -> (forall k, ~ matching s d k) -> exists txs, l = txs ++ [Rx_data f d] /\ NoDup (omap data_to txs) /\ (forall x, x ∈ txs -> exists g tok, x = Tx_data g d tok /\ due s f d g) /\
      (forall g, due s f d g -> exists tok, Tx_data g d tok ∈ txs) /\
      (forall k0, (forall k e, pit_at (fw_t s) k = Some e -> satisfies k d -> k = k0) ->
         forall g tok, Tx_data g d tok ∈ txs -> exists r, in_record_of s k0 g r /\ tok = i_token (ir_interest r))).
    { intros Hlog Hno. exists []. split; [unfold added in Hl; rewrite Hlog in Hl; change (Rx_data f d :: fw_log s) with ([Rx_data f d] ++ fw_log s) in Hl; by apply app_inv_tail in Hl|].
      split; [constructor|]. split; [by intros x ?%elem_of_nil|]. split; [|by intros k0 _ g tok ?%elem_of_nil].
      intros g (k & e & r & fg & He & Hm & _)%Hdue. destruct (Hno k). by exists e. }
    destruct Hc as [Hloc Hn Hs'|Hns Hno Hs'|k e s1 s2 s3 Hns He Hks (c & _ & -> & I1) Hw2 (p & inst & Heff & Hr) Hfin|ks s1 s2 pend Hns Hnd Hlen Hks (c & _ & -> & I1) Hsat Hpn Hpe Hout].
    - apply is_localhost_spec in Hn. destruct (Hsc Hn) as (fc' & ? & ?). congruence.
    - apply Hnil; [|done]. simpl in Hs'. destruct (unsol_decide (fw_unsol s) fc); [|by subst s']. by destruct Hs' as (c & _ & -> & _).
    - assert (I2 : Inv s2) by apply Hw2. unfold after_receive_data in Hr. rewrite (proj1 (Hp inst)) in Hr. apply bind_Some in Hr as (s4 & [] & H4 & H5).
      eapply run_quiet in H4; [|exact W|done|done|apply (proj2 (Hp inst))]. pose proof (satoms_quiet _ _ _ _ _ H4) as (C4 & Hl4 & _ & He4).
      assert (I4 : Inv s4) by (by eapply satoms_inv). destruct (wrote_at _ _ _ _ _ Hw2) as [_ He2]. destruct (He4 _ He2) as (e4 & Hk4 & Hlike).
      destruct (a_data_all _ (wo_order _ _ _ W) None _ _ _ _ _ _ I4 H5) as (e4' & Hk4' & Ha). rewrite Hk4 in Hk4'. injection Hk4' as <-. destruct Ha as (_ & Hnl & Hl5 & _).
      destruct (finished_spec _ _ _ _ _ _ _ _ Hfin) as (_ & _ & F3 & _).
      assert (Hf4 : fw_faces s4 = fw_faces s) by (by rewrite (sc_faces _ _ C4), (sc_faces _ _ (wr_core _ _ _ _ _ Hw2))).
      assert (Hn4 : now (fw_t s4) = now (fw_t s)) by (by rewrite (sc_now _ _ C4), (sc_now _ _ (wr_core _ _ _ _ _ Hw2))).
      rewrite Hf4, Hn4 in *. set (L := face_order _) in *.
      assert (HL : forall g, g ∈ L <-> exists r fg, find_in g (pe_in e) = Some r /\ (now (fw_t s) < fr_expiry (ir_rec r))%Z /\ fw_faces s !! g = Some fg /\ (g = f -> fc_link fg = LINK_AD_HOC)).
      { intros g. unfold L. rewrite (wo_order _ _ _ W), elem_of_list_In, filter_In, <- elem_of_list_In, pending_elem. split.
        - intros [(r4 & Hr4 & Hg4 & Ht4) Hb]. destruct (like_in_elem _ _ _ (lk_in _ _ Hlike) Hr4) as (r & Hrr & (Hfr & _ & _ & Hre) & _). simpl in Hrr.
          assert (Hrec : in_record_of s k g r) by (exists e; split; [done|]; split; [done|congruence]). destruct (Hface _ _ _ Hrec) as [fg Hg]. exists r, fg. split.
          { rewrite <- Hg4, Hfr. apply elem_find_in; [|done]. by destruct (entry_ok _ _ _ I He) as [[? _ _ _] _]. }
          split; [by rewrite <- Hre|]. split; [done|by eapply not_back_spec].
        - intros (r & fg & Hr & Ht & Hg & Hb). pose proof (like_find_in g _ _ (lk_in _ _ Hlike)) as Hlk. simpl in Hlk. rewrite Hr in Hlk. destruct (find_in g (pe_in e4)) as [r4|] eqn:E4; [|done].
          apply find_in_Some in E4 as [Hr4 Hg4]. destruct Hlk as [(Q1 & Q2 & Q3 & Q4) _]. split; [|by eapply not_back_spec]. exists r4. split; [done|]. split; [done|]. congruence. }
      assert (Hlog : fw_log s' = replies (fw_faces s) d e4 L ++ [Rx_data f d] ++ fw_log s).
      { rewrite F3, Hl5, Hl4, (wr_log _ _ _ _ _ Hw2). done. }
      exists (replies (fw_faces s) d e4 L). split; [unfold added in Hl; rewrite Hlog, app_assoc in Hl; by apply app_inv_tail in Hl|]. split; [by apply replies_nodup|].
      assert (Hm : matches_data (pe_interest e) d = true).
      { assert (Hm : matching s d k) by (by apply Hks). destruct Hm as (e' & He' & Hm). congruence. }
      assert (Htx : forall g tok, Tx_data g d tok ∈ replies (fw_faces s) d e4 L <-> due s f d g /\ exists r, find_in g (pe_in e) = Some r /\ tok = i_token (ir_interest r)).
      { intros g tok. rewrite replies_elem, Hdue. pose proof (like_find_in g _ _ (lk_in _ _ Hlike)) as Hlk. simpl in Hlk. split.
        - intros (g' & fg & r & Hg & Hfg & Hr & Hs & Heq). injection Heq as <- ->. rewrite Hr in Hlk. destruct (find_in g (pe_in e)) as [r0|] eqn:E0; [|done].
          apply HL in Hg as (r' & fg' & Hr' & Ht & Hfg' & Hb). rewrite E0 in Hr'. injection Hr' as <-. rewrite Hfg in Hfg'. injection Hfg' as <-.
          split; [by exists k, e, r0, fg|]. exists r0. split; [done|]. by destruct Hlk as [_ <-].
        - intros [(k1 & e1 & r1 & fg & He1 & Hm1 & Hr1 & Ht1 & Hfg & Hb & Hlo) (r & Hr & ->)].
          assert (Hk1 : k1 = k) by (apply Hks; by exists e1). subst k1. rewrite He in He1. injection He1 as <-. rewrite Hr in Hr1. injection Hr1 as <-.
          rewrite Hr in Hlk. destruct (find_in g (pe_in e4)) as [r4|] eqn:E4; [|done]. exists g, fg, r4. split; [apply HL; by exists r, fg|]. split; [done|]. split; [done|]. split; [done|].
          by destruct Hlk as [_ ->]. }
      split; [|split].
      + intros x Hx. pose proof Hx as (g & fg & r & _ & _ & _ & _ & ->)%replies_elem. exists g, (i_token (ir_interest r)). split; [done|]. by apply Htx in Hx as [? _].
      + intros g Hg. pose proof Hg as (k1 & e1 & r1 & fg & He1 & Hm1 & Hr1 & _)%Hdue. assert (Hk1 : k1 = k) by (apply Hks; by exists e1). subst k1. rewrite He in He1. injection He1 as <-.
        exists (i_token (ir_interest r1)). apply Htx. split; [done|]. by exists r1.
      + intros k0 Hk0 g tok [_ (r & [Hr1 Hr2]%find_in_Some & ->)]%Htx. rewrite <- (Hk0 k e He) by (by apply (Hkey k e)). exists r. split; [by exists e|done].
    - pose proof (sat_loop_log _ _ _ _ _ Hp I1 Hsat) as Hl2. destruct (sat_loop_spec _ _ _ _ _ _ W _ _ _ _ _ I1 Hnd Hsat) as (_ & Hcf & _).
      assert (Hf2 : fw_faces s2 = fw_faces s) by (by rewrite (cf_faces _ _ Hcf)). rewrite Hf2 in Hout.
      set (L := List.filter _ _) in Hout.
      assert (HnL : NoDup L) by (unfold L; eapply sublist_NoDup; [apply sublist_filter|]; by rewrite (wo_order _ _ _ W)).
      destruct (each_out_exact _ _ _ _ Hout HnL) as (txs & Htl & Htn & Htx). rewrite Hf2 in Htx.
      exists txs. split; [unfold added in *; rewrite Htl, Hl2 in Hl; simpl in Hl; change (Rx_data f d :: fw_log s) with ([Rx_data f d] ++ fw_log s) in Hl; rewrite app_assoc in Hl; by apply app_inv_tail in Hl|].
      split; [done|].
      assert (Hd : forall g fg, fw_faces s !! g = Some fg -> (localhost (d_name d) -> fc_local fg = true) -> (g ∈ L <-> due s f d g)).
      { intros g fg Hg Hlo. unfold L. rewrite elem_of_list_In, filter_In, <- elem_of_list_In, (wo_order _ _ _ W), Hpe, Hdue, (not_back_spec _ _ _ _ Hg). split.
        - intros [(k & e & Hk & He & (r & Hr & Hgr & Ht)%pending_elem) Hb]. exists k, e, r, fg. split; [done|]. apply Hks in Hk as (e' & He' & Hm). assert (e' = e) as -> by congruence.
          split; [done|]. split; [rewrite <- Hgr; apply elem_find_in; [|done]; by destruct (entry_ok _ _ _ I He) as [[? _ _ _] _]|]. done.
        - intros (k & e & r & fg' & He & Hm & [Hr Hgr]%find_in_Some & Ht & Hg' & Hb & Hlo'). assert (fg' = fg) as -> by congruence. split; [|done]. exists k, e. split; [apply Hks; by exists e|].
          split; [done|]. apply pending_elem. by exists r. }
      split; [|split].
      + intros x (g & fg & Hg & Hfg & Hlo & ->)%Htx. exists g, None. split; [done|]. by apply (Hd g fg).
      + intros g Hg. pose proof Hg as (k & e & r & fg & _ & _ & _ & _ & Hfg & _ & Hlo)%Hdue. exists None. apply Htx. exists g, fg. split; [by apply (Hd g fg)|done].
      + intros k0 Hk0. exfalso. destruct ks as [|k1 [|k2 ks]]; simpl in Hlen; [lia|lia|]. apply NoDup_cons in Hnd as [Hx _]. apply Hx.
        assert (H1 : matching s d k1) by (apply Hks; by left). assert (H2 : matching s d k2) by (apply Hks; right; by left).
        destruct H1 as (e1 & He1 & Hm1), H2 as (e2 & He2 & Hm2). rewrite (Hk0 k1 e1 He1) by (by apply (Hkey k1 e1)). rewrite (Hk0 k2 e2 He2) by (by apply (Hkey k2 e2)). by left.
  Qed.

  (** ** Duplicate nonces *)
  Lemma is_dup_spec s f fc i e : Inv s -> fw_faces s !! f = Some fc -> pit_at (fw_t s) (key_of i) = Some e -> is_dup fc e (i_nonce i) f = true <-> looping s f i.
  Proof.
    intros I Hf He. unfold is_dup, find_duplicate_nonce, looping. simpl.
    set (ins b r := (fr_nonce (ir_rec r) =? i_nonce i)%N && Bool.eqb (fr_face (ir_rec r) =? f)%N b).
    set (outs b r := (fr_nonce (or_rec r) =? i_nonce i)%N && Bool.eqb (fr_face (or_rec r) =? f)%N b).
    assert (Hin : forall b, existsb (ins b) (pe_in e) = true <-> exists r, r ∈ pe_in e /\ fr_nonce (ir_rec r) = i_nonce i /\ (fr_face (ir_rec r) =? f)%N = b).
    { intros b. rewrite existsb_exists. unfold ins. split.
      - intros (r & Hr%elem_of_list_In & [H1%N.eqb_eq H2%eqb_prop]%andb_prop). by exists r.
      - intros (r & Hr & H1 & H2). exists r. split; [by apply elem_of_list_In|]. rewrite H1, N.eqb_refl, H2. simpl. apply Bool.eqb_reflx. }
    assert (Hout : forall b, existsb (outs b) (pe_out e) = true <-> exists r, r ∈ pe_out e /\ fr_nonce (or_rec r) = i_nonce i /\ (fr_face (or_rec r) =? f)%N = b).
    { intros b. rewrite existsb_exists. unfold outs. split.
      - intros (r & Hr%elem_of_list_In & [H1%N.eqb_eq H2%eqb_prop]%andb_prop). by exists r.
      - intros (r & Hr & H1 & H2). exists r. split; [by apply elem_of_list_In|]. rewrite H1, N.eqb_refl, H2. simpl. apply Bool.eqb_reflx. }
    assert (Hall : existsb (ins true) (pe_in e) || existsb (ins false) (pe_in e) || existsb (outs true) (pe_out e) || existsb (outs false) (pe_out e) = true <->
      (exists g r, in_record_of s (key_of i) g r /\ fr_nonce (ir_rec r) = i_nonce i) \/ (exists g r, out_record_of s (key_of i) g r /\ fr_nonce (or_rec r) = i_nonce i)).
    { rewrite !orb_true_iff, !Hin, !Hout. split.
      - intros [[[H|H]|H]|H]; destruct H as (r & Hr & Hn & _); [left|left|right|right]; eexists _, r; (split; [by exists e|done]).
      - intros [(g & r & (e' & He' & Hr & _) & Hn)|(g & r & (e' & He' & Hr & _) & Hn)]; rewrite He in He'; injection He' as <-.
        + left. left. destruct (fr_face (ir_rec r) =? f)%N eqn:E; [left|right]; by exists r.
        + destruct (fr_face (or_rec r) =? f)%N eqn:E; [left; right|right]; by exists r. }
    assert (Hsame : existsb (ins true) (pe_in e) = true <-> exists r, in_record_of s (key_of i) f r /\ fr_nonce (ir_rec r) = i_nonce i).
    { rewrite Hin. split.
      - intros (r & Hr & Hn & Hfr%N.eqb_eq). exists r. split; [by exists e|done].
      - intros (r & (e' & He' & Hr & Hfr) & Hn). rewrite He in He'. injection He' as <-. exists r. split; [done|]. split; [done|]. by apply N.eqb_eq. }
    rewrite <- Hall, <- Hsame. clear Hall Hsame.
    set (B := existsb (ins true) (pe_in e) || existsb (ins false) (pe_in e) || existsb (outs true) (pe_out e) || existsb (outs false) (pe_out e)).
    change ((if is_p2p fc then B && negb (existsb (ins true) (pe_in e)) else B) = true <-> B = true /\ ~ (p2p_face s f /\ existsb (ins true) (pe_in e) = true)).
    set (A := existsb (ins true) (pe_in e)) in *. clearbody A B.
    assert (Hp : is_p2p fc = true <-> p2p_face s f).
    { unfold is_p2p. split; [intros H; exists fc; split; [done|]; by destruct (fc_link fc)|]. intros (fc' & Hf' & Hl). assert (fc' = fc) as -> by congruence. by rewrite Hl. }
    rewrite <- Hp. destruct (is_p2p fc), A, B; simpl; split; try done; try (intros [? ?]; tauto); intros _; (split; [done|]); intros [? ?]; done.
  Qed.
  Lemma one_hop_i2 r i : ~ hop_zero i -> key_of (strip_hint r (dec_hop i)) = key_of i.
  Proof. intros H. by apply (one_hop_strip r i _ (one_hop_dec i H)). Qed.
  Lemma p2p_nacks (x : io) l i f s : fw_log (loop_out strategies i f s) = l ++ fw_log s -> x ∈ l -> x = Tx_nack f i NACK_DUPLICATE /\ p2p_face s f.
  Proof.
    unfold loop_out, loop_nacks. destruct (fw_faces s !! f) as [fc|] eqn:E.
    2: { intros H. change (fw_log s) with ([] ++ fw_log s) in H at 1. apply app_inv_tail in H as <-. by intros ?%elem_of_nil. }
    assert (Hp : is_p2p fc = true -> p2p_face s f) by (intros H; exists fc; split; [done|]; unfold is_p2p in H; by destruct (fc_link fc)).
    destruct (is_p2p fc); simpl.
    2: { intros H. change (fw_log s) with ([] ++ fw_log s) in H at 1. apply app_inv_tail in H as <-. by intros ?%elem_of_nil. }
    destruct (match effective _ _ with Some _ => _ | None => _ end).
    - intros H. change (fw_log _) with ([Tx_nack f i NACK_DUPLICATE] ++ fw_log s) in H at 1. apply app_inv_tail in H as <-. intros ->%elem_of_list_singleton. split; [done|by apply Hp].
    - intros H. change (fw_log s) with ([] ++ fw_log s) in H at 1. apply app_inv_tail in H as <-. by intros ?%elem_of_nil.
  Qed.
  Lemma loop_same i f s : fw_t (loop_out strategies i f s) = fw_t s /\ fw_cs (loop_out strategies i f s) = fw_cs s /\ fw_dnl (loop_out strategies i f s) = fw_dnl s.
  Proof. unfold loop_out. by destruct (loop_nacks _ _ _ _). Qed.
  Lemma loop_all s f i s' l : Inv s -> ev_ok s (EvInterest f i) -> step s (EvInterest f i) = Some s' -> added s s' l ->
    Dnl_Model.dnl_has make_entry (fw_dnl s) (i_name i) (i_nonce i) = true \/ looping s f i ->
    (forall k, pit_at (fw_t s') k = pit_at (fw_t s) k) /\ fw_cs s' = fw_cs s /\ fw_dnl s' = fw_dnl s /\
    forall x, x ∈ l -> x = Rx_interest f i \/ exists j, x = Tx_nack f j NACK_DUPLICATE /\ one_hop i j /\ p2p_face s f.
  Proof.
    intros I Ho H%step_event Hl Hloop. simpl in H. pose proof Ho as (_ & Hlife & _). eapply interest_cases in H as (fc & Hf & Hc); [|done|done].
    assert (Hrx : fw_log s' = Rx_interest f i :: fw_log s -> forall x, x ∈ l -> x = Rx_interest f i \/ exists j, x = Tx_nack f j NACK_DUPLICATE /\ one_hop i j /\ p2p_face s f).
    { intros Hlog. unfold added in Hl. rewrite Hlog in Hl. change (Rx_interest f i :: fw_log s) with ([Rx_interest f i] ++ fw_log s) in Hl. apply app_inv_tail in Hl as <-.
      intros x ->%elem_of_list_singleton. by left. }
    assert (Hlp : forall j s1, one_hop i j -> fw_log s1 = Rx_interest f i :: fw_log s -> fw_faces s1 = fw_faces s -> s' = loop_out strategies j f s1 ->
      forall x, x ∈ l -> x = Rx_interest f i \/ exists j, x = Tx_nack f j NACK_DUPLICATE /\ one_hop i j /\ p2p_face s f).
    { intros j s1 Hj Hlog1 Hf1 ->. assert (Hx : exists l1, fw_log (loop_out strategies j f s1) = l1 ++ fw_log s1).
      { unfold loop_out. destruct (loop_nacks _ _ _ _); [by exists [Tx_nack f j NACK_DUPLICATE]|by exists []]. }
      destruct Hx as [l1 Hx]. unfold added in Hl. rewrite Hx, Hlog1 in Hl. change (Rx_interest f i :: fw_log s) with ([Rx_interest f i] ++ fw_log s) in Hl. rewrite app_assoc in Hl. apply app_inv_tail in Hl as <-.
      intros x [Hx1|Hx1]%elem_of_app; [|apply elem_of_list_singleton in Hx1 as ->; by left]. eapply p2p_nacks in Hx as [-> Hp]; [|exact Hx1]. right. exists j. split; [done|]. split; [done|].
      destruct Hp as (fc' & Hfc' & ?). rewrite Hf1 in Hfc'. by exists fc'. }
    destruct Hc as [_ ->|_ _ _ ->|Hz _ Hp']; [split; [done|]; split; [done|]; split; [done|]; by apply Hrx|split; [done|]; split; [done|]; split; [done|]; by apply Hrx|].
    pose proof (one_hop_dec i Hz) as Hd. set (s0 := got (Rx_interest f i) inc_in_interests s) in *.
    destruct Hp' as [_ Hs'|i2 e new s1 Hdnl Hi2 Hins Hp'].
    { fold s0 in Hs'. destruct (loop_same (dec_hop i) f s0) as (L1 & L2 & L3). rewrite Hs', L1, L2, L3. split; [done|]. split; [done|]. split; [done|]. eapply Hlp; [exact Hd|..|exact Hs']; done. }
    destruct Hloop as [?|Hloop]; [congruence|]. assert (Hk2 : key_of i2 = key_of i) by (subst i2; by apply one_hop_i2).
    destruct (i2_kept (fw_regions s) i) as (_ & _ & Hno2 & _). rewrite <- Hi2 in Hno2.
    assert (He : pit_at (fw_t s) (key_of i) = Some e).
    { pose proof (ins_e _ _ _ _ _ Hins) as He. rewrite Hk2 in He. change (fw_t (got (Rx_interest f i) inc_in_interests s)) with (fw_t s) in He.
      destruct (pit_at (fw_t s) (key_of i)) as [e'|] eqn:E; [by rewrite He|]. destruct Hloop as [[(g & r & (e' & He' & _) & _)|(g & r & (e' & He' & _) & _)] _]; congruence. }
    assert (Hdup : is_dup fc e (i_nonce i2) f = true) by (rewrite Hno2; by eapply is_dup_spec).
    destruct Hp' as [_ Hs'|c d Hd' _ _ _ _|s2 e3 s3 Hd' _ _ _ _]; [|congruence|congruence].
    destruct (loop_same i2 f s1) as (L1 & L2 & L3). rewrite Hs', L1, L2, L3. split.
    { intros k. rewrite (ins_pits _ _ _ _ _ Hins), Hk2. by case_decide as Hk; [rewrite Hk, He|]. }
    split; [by rewrite (sc_cs _ _ (ins_core _ _ _ _ _ Hins))|]. split; [by rewrite (sc_dnl _ _ (ins_core _ _ _ _ _ Hins))|].
    eapply (Hlp i2 s1); [subst i2; by apply one_hop_strip|by rewrite (ins_log _ _ _ _ _ Hins)|by rewrite (sc_faces _ _ (ins_core _ _ _ _ _ Hins))|done].
  Qed.

  (** ** Content store hits *)
  Lemma cs_satisfies_ext t i j e : key_of i = key_of j -> Cs_Spec.entry_satisfies t i e -> Cs_Spec.entry_satisfies t j e.
  Proof. intros H. injection H as H1 H2 H3. unfold Cs_Spec.entry_satisfies, Cs_Spec.name_satisfies. by rewrite H1, H2, H3. Qed.
  Lemma hit_all s f i s' l : Inv s -> ev_ok s (EvInterest f i) -> step s (EvInterest f i) = Some s' -> added s s' l ->
    i_hop i <> Some 0%N -> (localhost (i_name i) -> local_face s f) -> Dnl_Model.dnl_has make_entry (fw_dnl s) (i_name i) (i_nonce i) = false ->
    (forall e, pit_at (fw_t s) (key_of i) = Some e -> pe_in e = [] /\ forall r, r ∈ pe_out e -> fr_nonce (or_rec r) <> i_nonce i) ->
    Cs_Model.cs_serve (fw_cs s) = true -> (0 < Cs_Model.cs_limit (fw_cs s))%N ->
    (exists e, e ∈ Cs_Model.cs_table (fw_cs s) /\ Cs_Spec.entry_satisfies (now (fw_t s)) i e) ->
    exists d e', cs_answers s i d /\ (l = [Tx_data f d (i_token i); Rx_interest f i] \/ l = [Rx_interest f i] /\ localhost (d_name d) /\ nonlocal_face s f) /\
      pit_at (fw_t s') (key_of i) = Some e' /\ pe_timer e' = Some (now (fw_t s)) /\ pe_satisfied e' = true /\ pe_fresh e' = d_fresh d /\ pe_in e' = [] /\
      (forall k, k <> key_of i -> pit_at (fw_t s') k = pit_at (fw_t s) k) /\ Cs_Model.cs_table (fw_cs s') = Cs_Model.cs_table (fw_cs s).
  Proof.
    intros I Ho H%step_event Hl Hhop Hsc Hdnl Hpit Hserve Hlim (ce & Hce & Hcs). simpl in H. pose proof Ho as (_ & Hlife & _). eapply interest_cases in H as (fc & Hf & Hc); [|done|done].
    destruct Hc as [Hz _|_ Hloc Hn%is_localhost_spec _|Hz _ Hp']; [done|destruct (Hsc Hn) as (fc' & ? & ?); congruence|].
    destruct Hp' as [Hd _|i2 e new s1 _ Hi2 Hins Hp']; [congruence|].
    set (s0 := got (Rx_interest f i) inc_in_interests s) in *.
    assert (Hk2 : key_of i2 = key_of i) by (subst i2; by apply one_hop_i2). destruct (i2_kept (fw_regions s) i) as (Ht2 & _ & Hno2 & _). rewrite <- Hi2 in Hno2, Ht2.
    assert (Hin : pe_in e = [] /\ forall r, r ∈ pe_out e -> fr_nonce (or_rec r) <> i_nonce i).
    { pose proof (ins_e _ _ _ _ _ Hins) as He. rewrite Hk2 in He. simpl in He. change (fw_t s0) with (fw_t s) in He.
      destruct (pit_at (fw_t s) (key_of i)) as [e'|] eqn:E; simpl in He; rewrite He; [by apply Hpit|]. simpl. split; [done|]. by intros r ?%elem_of_nil. }
    destruct Hin as [Hin Hout].
    assert (Hnd : is_dup fc e (i_nonce i2) f = false).
    { unfold is_dup, find_duplicate_nonce. simpl. rewrite Hin. simpl. assert (Hx : forall b, existsb (fun r => (fr_nonce (or_rec r) =? i_nonce i2)%N && Bool.eqb (fr_face (or_rec r) =? f)%N b) (pe_out e) = false).
      { intros b. apply not_true_iff_false. rewrite existsb_exists. intros (r & Hr%elem_of_list_In & [Hx%N.eqb_eq _]%andb_prop). apply (Hout r Hr). congruence. }
      rewrite !Hx. by destruct (is_p2p fc). }
    pose proof (ins_core _ _ _ _ _ Hins) as C1. assert (Hcs1 : fw_cs s1 = fw_cs s) by (by rewrite (sc_cs _ _ C1)). assert (Hn1 : now (fw_t s1) = now (fw_t s)) by (by rewrite (sc_now _ _ C1)).
    destruct (iv_cs _ I) as [limit Hreach].
    destruct (Cs_Main.cs_find_main limit (now (fw_t s)) i2 (fw_cs s) Hreach) as (c' & r & Hfind & Htab & Hr).
    assert (Hsat : forall e0, Cs_Spec.entry_satisfies (now (fw_t s)) i2 e0 <-> Cs_Spec.entry_satisfies (now (fw_t s)) i e0) by (intros e0; split; by apply cs_satisfies_ext).
    destruct Hp' as [Hd _|c d _ _ Hc Ic [(sc & Hw & Hs') _]|s2 e3 s3 _ [[? _]|(_ & c & Hc & _)] _ _ _]; [congruence| |congruence|].
    2: { rewrite Hn1, Hcs1, Hfind in Hc. injection Hc as -> ->. destruct Hr as [?|[?|Hr]]; [congruence|lia|]. destruct (Hr ce Hce). by apply Hsat. }
    rewrite Hn1, Hcs1, Hfind in Hc. injection Hc as -> ->. destruct Hr as (_ & _ & e0 & H0 & Hd0 & Hs0 & Hmin). set (s2 := set_cs c s1) in *.
    destruct (wrote_at _ _ _ _ _ Hw) as [_ Hat]. change (now (fw_t s2)) with (now (fw_t s1)) in Hat. rewrite Hn1, Hk2 in Hat.
    set (e' := set_timer (now (fw_t s)) (set_satisfied (d_fresh d) e)) in *.
    assert (Hsl : fw_t s' = fw_t sc /\ fw_cs s' = fw_cs sc /\ ((fw_log s' = Tx_data f d (i_token i2) :: fw_log sc) \/ fw_log s' = fw_log sc /\ localhost (d_name d) /\ nonlocal_face s f)).
    { destruct (fc_local fc) eqn:Efl; simpl in Hs'; [rewrite Hs'; split; [done|]; split; [done|]; by left|]. destruct (is_localhost (d_name d)) eqn:Eld; simpl in Hs'; rewrite Hs'; (split; [done|]; split; [done|]); [right|by left].
      split; [done|]. split; [by apply is_localhost_spec|by exists fc]. }
    destruct Hsl as (Hst & Hscs & Hslog). assert (Hlogc : fw_log sc = Rx_interest f i :: fw_log s) by (rewrite (wr_log _ _ _ _ _ Hw); exact (ins_log _ _ _ _ _ Hins)).
    exists d, e'. split.
    { exists e0. split; [done|]. split; [done|]. split; [by apply Hsat|]. intros e1 H1 H1'%Hsat. by apply Hmin. }
    split.
    { unfold added in Hl. destruct Hslog as [Hlg|(Hlg & Hll)]; rewrite Hlg, Hlogc in Hl.
      - left. change (Tx_data f d (i_token i2) :: Rx_interest f i :: fw_log s) with ([Tx_data f d (i_token i2); Rx_interest f i] ++ fw_log s) in Hl. apply app_inv_tail in Hl as <-. by rewrite Ht2.
      - right. change (Rx_interest f i :: fw_log s) with ([Rx_interest f i] ++ fw_log s) in Hl. by apply app_inv_tail in Hl as <-. }
    split; [by rewrite Hst|]. split; [done|]. split; [done|]. split; [done|]. split; [done|]. split.
    - intros k Hk. assert (Hk' : k <> key_of i2) by congruence. rewrite Hst, (wrote_other _ _ _ _ _ _ Hw Hk'). simpl. by rewrite (ins_pits _ _ _ _ _ Hins), decide_False.
    - rewrite Hscs, (sc_cs _ _ (wr_core _ _ _ _ _ Hw)). simpl. done.
  Qed.
End data.
