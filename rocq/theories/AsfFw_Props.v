(** C60: where ASF sends Interests, as part of the forwarder.  What it knows about the faces is whatever
    its measurements say ([Asf_Props]). *)
From stdpp Require Import gmap.
From Verif Require Import Lib Name_Model Name_Proof Packet_Model Nt_Model Nt_Spec Tree_Model Tree_Proof Tab_Model Tab_Spec Tab_At Tab_Fib Tab_Pit Tab_Pit2 Tab_Sc Tab_Run Tab_Main Fw_Model Fw_Spec Fw_Inv Fw_Case Fw_Case2 Fw_Case3 Fw_Hist Fw_Acc Fw_Step Fw_Out Fw_Main Fw_Data Fw_Loop Fw_Ex FwScope_Props FwData_Props FwPit_Props FwFace_Props St_Model St_Retx St_Spec St_Dec St_Run St_At St_Best St_Multi StBest_Props StMulti_Props StFw_Props Asf_Model Asf_Spec Asf_Rank Asf_Fw.
From Verif Require Cs_Model Cs_Spec Cs_Main Dnl_Model.

Section props.
  Variable sort_nexthops : list nexthop -> list nexthop.
  Variable create_strategy : name -> create_result.
  Variable same_type : name -> name -> bool.
  Variable make_entry : name -> N -> Dnl_Model.fingerprint.
  Variable rand : nat -> nat.
  Variable face_order : list N -> list N.
  Variable strategies : name -> strategy.
  Variable know : fw -> name -> name -> known_of.
  Variable due : fw -> name -> name -> bool.
  Variable has_info : fw -> name -> N -> bool.
  Variable double_of : nat -> Z * Z.
  Notation step := (fw_step sort_nexthops create_strategy same_type make_entry rand face_order strategies).
  Notation reachable := (fw_reachable sort_nexthops create_strategy same_type make_entry rand face_order strategies).
  Notation asf := (asf_strategy know due has_info double_of).
  Hypothesis W : world_ok sort_nexthops same_type face_order.

  (** when [p] is due for probing, a copy of the Interest [j] that went to [g] goes to another nexthop
      that it may go to, with another nonce; never back to [f] *)
  Definition probed (s : fw) (f : N) (n p : name) (l : list nexthop) (g : N) (j : interest) (tx : list io) : Prop :=
    exists s2, meanwhile s s2 /\
      (due s2 p n = false -> tx = []) /\
      (due s2 p n = true ->
        ((forall h, h ∈ l -> ~ may_probe s f n g (nh_face h)) /\ tx = []) \/
        (exists h x, probes_first (know s2 p n) (fun h => may_probe s f n g (nh_face h)) l h /\ x <> i_nonce j /\ sent s (nh_face h) (with_nonce x j) tx)).

  (** a new Interest goes to the preferred nexthop it may go to, and possibly, as a probe, to one more; if
      there is none it is turned down with a Nack NoRoute, on a point-to-point face, and its entry
      expires at once *)
  Theorem C60_new s f i s' inst order c : reachable s -> reaches make_entry s f i inst -> strategies inst = asf order c ->
    step s (EvInterest f i) = Some s' -> idle (now (fw_t s)) (outs_of s (key_of i)) ->
    exists hint p l s1, hint_for s i hint /\ matched s hint (i_name i) p l /\ meanwhile s s1 /\
      ((exists h j tx pr, best (know s1 p (i_name i)) (fun h => may_go s f (i_name i) (nh_face h)) l h /\
          one_hop i j /\ i_nonce j = i_nonce i /\ i_token j = None /\ sent s (nh_face h) j tx /\
          probed s f (i_name i) p l (nh_face h) j pr /\ added s s' (pr ++ tx ++ [Rx_interest f i])) \/
       ((forall h, h ∈ l -> ~ may_go s f (i_name i) (nh_face h)) /\
        (p2p_face s f -> exists j, one_hop i j /\ i_nonce j = i_nonce i /\ i_token j = i_token i /\ added s s' [Tx_nack f j 150; Rx_interest f i]) /\
        (~ p2p_face s f -> added s s' [Rx_interest f i]) /\
        exists e', pit_at (fw_t s') (key_of i) = Some e' /\ pe_timer e' = Some (now (fw_t s)))).
  Proof.
    intros Hr (Ho & Ht & Hnh & Hc & p & Hg) Hst H Hidle. destruct (at_strategy _ _ _ _ _ _ _ W s f i s' p inst Hr Ho H Ht Hnh Hc Hg) as (i3 & e & s3 & R & Hrun).
    rewrite Hst in Hrun. simpl in Hrun. unfold asf_interest in Hrun. apply run_with in Hrun as (e0 & He0 & Hrun). rewrite (rd_at _ _ _ _ _ _ R) in He0. injection He0 as <-.
    rewrite <- (rd_out _ _ _ _ _ _ R) in Hidle. rewrite <- (rd_now _ _ _ _ _ _ R) in Hidle. apply idle_spec in Hidle.
    destruct (lookup_fib s3 e) as [fe|] eqn:El; [|done]. cbv zeta in Hrun. rewrite Hidle in Hrun. simpl negb in Hrun. cbv iota in Hrun.
    pose proof (lookup_matched s3 e fe (rd_inv _ _ _ _ _ _ R) El) as Hm. apply (matched_ext s) in Hm; [|apply R]. rewrite (rd_name _ _ _ _ _ _ R) in Hm.
    exists (i_hint (pe_interest e)), (fe_prefix fe), (fe_nexthops fe), s3. split; [apply R|]. split; [done|].
    split; [split; [apply R|]; split; apply R|].
    rewrite (ready_name _ _ _ _ _ _ R) in Hrun. set (kn := know s3 (fe_prefix fe) (i_name i)) in *.
    assert (Hmg : forall h, next_hop_eligible (fw_faces s3) f i3 h e None = true <-> may_go s f (i_name i) (nh_face h)) by (intros h; apply (ready_may_go s); [apply Ho|done]).
    pose proof (best_face_spec kn (fun nh => next_hop_eligible (fw_faces s3) f i3 nh e None) (fe_nexthops fe)) as Hb.
    destruct (best_face _ _ _) as [g|].
    - left. destruct Hb as (h & Hh & Hel & <- & Hpref). exists h, (without_token i3).
      apply (run_interest rand face_order) in Hrun as (e' & e1 & tx & s4 & b & D & Hrun & _ & Hs & _); [|apply R|rewrite (rd_life _ _ _ _ _ _ R); apply Ho|exists e; apply R].
      pose proof (dd_core _ _ _ _ _ _ D) as C.
      assert (Hsent : forall sx g j l, fw_faces sx = fw_faces s -> sent sx g j l -> sent s g j l) by (intros sx g j l E; unfold sent, local_face, nonlocal_face; by rewrite E).
      assert (Hf4 : fw_faces s4 = fw_faces s) by (rewrite (sc_faces _ _ C); apply R).
      assert (Hmw : meanwhile s s4) by (split; [done|]; split; [rewrite (sc_now _ _ C); apply R|]; intros n; rewrite (sc_fib _ _ C); apply R).
      assert (Hlog4 : fw_log s4 = tx ++ Rx_interest f i :: fw_log s) by (by rewrite (dd_log _ _ _ _ _ _ D), (rd_log _ _ _ _ _ _ R)).
      assert (Hpr : exists pr, probed s f (i_name i) (fe_prefix fe) (fe_nexthops fe) (nh_face h) (without_token i3) pr /\ fw_log s' = pr ++ fw_log s4).
      { unfold send_probe in Hrun. cbn [run] in Hrun. apply bind_Some in Hrun as (s5 & s6 & [= <- <-] & Hrun). rewrite (ready_name _ _ _ _ _ _ R) in Hrun.
        assert (Hal : forall h', probe_allowed (fw_faces s4) f (nh_face h) i3 h' = true <-> may_probe s f (i_name i) (nh_face h) (nh_face h')).
        { intros h'. rewrite probe_allowed_spec; [|unfold face_exists; rewrite Hf4; apply Ho]. unfold may_probe, face_exists. by rewrite Hf4, (ready_name _ _ _ _ _ _ R). }
        destruct (due s4 (fe_prefix fe) (i_name i)) eqn:Ed.
        2: { apply run_done in Hrun. subst s'. exists []. split; [|done]. exists s4. split; [done|]. split; [done|]. by rewrite Ed. }
        cbn [run] in Hrun. apply bind_Some in Hrun as (s5 & x & [= <- _] & Hrun).
        pose proof (face_to_probe_spec (know s4 (fe_prefix fe) (i_name i)) (probe_allowed (fw_faces s4) f (nh_face h) i3) (double_of x) (fe_nexthops fe)) as Hp.
        destruct (face_to_probe _ _ _ _) as [[g'|]|]; [| |done].
        - cbn [run] in Hrun. apply bind_Some in Hrun as (s5 & y & [= <- _] & Hrun). destruct Hp as (h' & Hh' & Hal' & <- & Hun).
          apply (run_copy rand face_order) in Hrun as (e5 & e6 & pr & D2 & Hs2); [|apply Inv_rand; apply Inv_rand; apply D|rewrite (rd_life _ _ _ _ _ _ R); apply Ho|exists e1; exact (did_after _ _ _ _ _ _ D)].
          exists pr. split; [|exact (dd_log _ _ _ _ _ _ D2)]. exists s4. split; [done|]. split; [by rewrite Ed|]. intros _. right. exists h', (fresh_nonce (i_nonce i3) y). split; [|split; [apply fresh_other|]].
          + split; [done|]. split; [by apply Hal|]. intros (h2 & A & B%Hal & C2). destruct Hun as [U1 U2]; [by exists h2|]. split; [done|]. intros h3 A3 B3%Hal C3. by apply U2.
          + by eapply Hsent; [|exact Hs2].
        - apply run_done in Hrun. subst s'. exists []. split; [|done]. exists s4. split; [done|]. split; [done|]. intros _. left. split; [|done]. intros h' Hh' Hmp%Hal. specialize (Hp h' Hh'). congruence. }
      destruct Hpr as (pr & Hpr & Hlog). exists tx, pr. split; [split; [done|]; split; [by apply Hmg|]; intros h' A B%Hmg; by apply Hpref|].
      split; [exact (rd_hop _ _ _ _ _ _ R)|]. split; [exact (rd_nonce _ _ _ _ _ _ R)|]. split; [done|]. split; [by eapply Hsent; [|exact Hs]; apply R|]. split; [done|].
      unfold added. rewrite Hlog, Hlog4. by rewrite <- !app_assoc.
    - right. split; [intros h Hh Hx%Hmg; specialize (Hb h Hh); simpl in Hb; congruence|]. eapply (run_reject _ _ s) in Hrun as (A1 & A2 & _ & A3); [|exact R|done|apply did_refl; apply R|done]. done.
  Qed.

  (** nexthop [g] is tried: the Interest is sent to it, unless suppressed for it *)
  Definition tried (c : retx_cfg) (s s' : fw) (f : N) (i : interest) (g : N) : Prop :=
    exists j tx, one_hop i j /\ i_nonce j = i_nonce i /\ i_token j = None /\ added s s' (tx ++ [Rx_interest f i]) /\
      (suppressed c s (key_of i) g -> tx = []) /\ (~ suppressed c s (key_of i) g -> sent s g j tx) /\
      interval_moved c s s' (key_of i) g (tx <> []).
  (** an Interest that is being retrieved: of the nexthops that are not waited for the preferred one is
      tried; if there is none, the one it was sent to longest ago; if it may go to no nexthop, nothing
      is sent *)
  Theorem C60_again s f i s' inst order c : reachable s -> reaches make_entry s f i inst -> strategies inst = asf order c ->
    step s (EvInterest f i) = Some s' -> ~ idle (now (fw_t s)) (outs_of s (key_of i)) ->
    exists hint p l s1, hint_for s i hint /\ matched s hint (i_name i) p l /\ meanwhile s s1 /\
      ((exists h, best (know s1 p (i_name i)) (fun h => may_go s f (i_name i) (nh_face h) /\ unused s (key_of i) (nh_face h)) l h /\ tried c s s' f i (nh_face h)) \/
       ((forall h, h ∈ l -> may_go s f (i_name i) (nh_face h) -> ~ unused s (key_of i) (nh_face h)) /\
        ((exists h r, h ∈ l /\ may_go s f (i_name i) (nh_face h) /\ out_record_of s (key_of i) (nh_face h) r /\
            (forall h' r', h' ∈ l -> may_go s f (i_name i) (nh_face h') -> out_record_of s (key_of i) (nh_face h') r' -> (fr_renewed (or_rec r) <= fr_renewed (or_rec r'))%Z) /\
            tried c s s' f i (nh_face h)) \/
         ((forall h, h ∈ l -> ~ may_go s f (i_name i) (nh_face h)) /\ added s s' [Rx_interest f i])))).
  Proof.
    intros Hr (Ho & Ht & Hnh & Hc & p & Hg) Hst H Hidle. destruct (at_strategy _ _ _ _ _ _ _ W s f i s' p inst Hr Ho H Ht Hnh Hc Hg) as (i3 & e & s3 & R & Hrun).
    rewrite Hst in Hrun. simpl in Hrun. unfold asf_interest in Hrun. apply run_with in Hrun as (e0 & He0 & Hrun). rewrite (rd_at _ _ _ _ _ _ R) in He0. injection He0 as <-.
    rewrite <- (rd_out _ _ _ _ _ _ R) in Hidle. rewrite <- (rd_now _ _ _ _ _ _ R) in Hidle. rewrite <- idle_spec in Hidle. apply not_false_is_true in Hidle.
    pose proof (rd_inv _ _ _ _ _ _ R) as I3. pose proof (rd_at _ _ _ _ _ _ R) as Hat.
    destruct (lookup_fib s3 e) as [fe|] eqn:El; [|done]. cbv zeta in Hrun. rewrite Hidle in Hrun. simpl negb in Hrun. cbv iota in Hrun.
    pose proof (lookup_matched s3 e fe I3 El) as Hm. apply (matched_ext s) in Hm; [|apply R]. rewrite (rd_name _ _ _ _ _ _ R) in Hm.
    exists (i_hint (pe_interest e)), (fe_prefix fe), (fe_nexthops fe), s3. split; [apply R|]. split; [done|].
    split; [split; [apply R|]; split; apply R|].
    rewrite (ready_name _ _ _ _ _ _ R) in Hrun. set (kn := know s3 (fe_prefix fe) (i_name i)) in *.
    assert (Hmg : forall h, next_hop_eligible (fw_faces s3) f i3 h e None = true <-> may_go s f (i_name i) (nh_face h)) by (intros h; apply (ready_may_go s); [apply Ho|done]).
    assert (Hun : forall h, next_hop_eligible (fw_faces s3) f i3 h e (Some (now (fw_t s3))) = true <-> may_go s f (i_name i) (nh_face h) /\ unused s (key_of i) (nh_face h)).
    { intros h. etransitivity; [apply (eligible_unused s3 f i3 h e (key_of i)); apply R|]. rewrite Hmg, (ready_unused _ _ _ _ _ _ _ R). done. }
    assert (Hrec : forall g r, find_out g (pe_out e) = Some r <-> out_record_of s (key_of i) g r).
    { intros g r. destruct (entry_ok _ _ _ I3 Hat) as [[_ N2 _ _] _]. rewrite outs_record, <- (rd_out _ _ _ _ _ _ R). split; [apply find_out_Some|]. intros [A <-]. by apply elem_find_out. }
    assert (Htry : forall h, may_go s f (i_name i) (nh_face h) -> run rand face_order (Some i3) (key_of i) (resend c (key_of i) s3 e (nh_face h)) s3 = Some (s', tt) -> tried c s s' f i (nh_face h)).
    { clear Hrun. intros h Hh Hrun. rewrite <- (resend_is rand face_order c i3 f (key_of i) s3 e h) in Hrun; [|done|by apply Hmg].
      apply (multi_loop _ _ _ _ _ _ ltac:(rewrite (rd_life _ _ _ _ _ _ R); apply Ho) _ _ _ e) in Hrun as (e1 & tx & D & Hnd & Hoth & Hx & Hgo & Htu); [|done|done|apply NoDup_singleton].
      assert (Hrec' : forall g r, find_out g (pe_out e1) = Some r <-> out_record_of s' (key_of i) g r).
      { intros g r. destruct (entry_ok _ _ _ (dd_inv _ _ _ _ _ _ D) (did_after _ _ _ _ _ _ D)) as [[_ N2 _ _] _]. rewrite outs_record. unfold outs_of. rewrite (did_after _ _ _ _ _ _ D). split; [apply find_out_Some|]. intros [A <-]. by apply elem_find_out. }
      assert (Hsup : suppressed c s3 (key_of i) (nh_face h) <-> suppressed c s (key_of i) (nh_face h)).
      { rewrite (suppressed_find c (key_of i) s3 e (nh_face h) I3 Hat). unfold suppressed. rewrite (rd_now _ _ _ _ _ _ R). split; intros (r & iv & A & B); exists r, iv; (split; [by apply Hrec|done]). }
      assert (Hin : h ∈ [h]) by left. specialize (Hgo h Hin). destruct (Htu h Hin) as (b & Hb & Hturn).
      assert (Htx : tx = [] \/ tx = [Tx_interest (nh_face h) (without_token i3)]).
      { destruct tx as [|x tx]; [by left|]. right. destruct (Hx x) as (h1 & ->%elem_of_list_singleton & ->); [left|]. f_equal. destruct tx as [|y tx]; [done|].
        destruct (Hx y) as (h2 & ->%elem_of_list_singleton & ->); [right; left|]. apply NoDup_cons in Hnd as [Hnd _]. destruct Hnd. left. }
      assert (Hne : Tx_interest (nh_face h) (without_token i3) ∈ tx <-> tx <> []).
      { destruct Htx as [->| ->]; [split; [by intros ?%elem_of_nil|done]|]. split; [done|]. intros _. left. }
      exists (without_token i3), tx. split; [exact (rd_hop _ _ _ _ _ _ R)|]. split; [exact (rd_nonce _ _ _ _ _ _ R)|]. split; [done|].
      split; [unfold added; rewrite (dd_log _ _ _ _ _ _ D), (rd_log _ _ _ _ _ _ R); by rewrite <- app_assoc|]. unfold goes in Hgo. rewrite Hsup in Hgo. split; [|split].
      - intros Hs. destruct Htx as [?|E]; [done|]. assert (tx <> []) as Hn by (by rewrite E). apply Hne, Hgo in Hn as (_ & Hn & _). done.
      - intros Hs. unfold sent. change (i_hop (without_token i3)) with (i_hop i3). assert (Hl : local_face s3 (nh_face h) <-> local_face s (nh_face h)) by (unfold local_face; by rewrite (rd_faces _ _ _ _ _ _ R)).
        rewrite Hl in Hgo. pose proof (proj2 (Hmg h) Hh) as Hel. destruct (decide (i_hop i3 = Some 0%N)) as [Ez|Ez].
        + destruct Hh as ((fc & Hfc) & _). destruct (fc_local fc) eqn:Efc.
          * left. assert (local_face s (nh_face h)) as Hloc by (by exists fc). split; [done|]. destruct Htx as [E|?]; [|done]. assert (tx <> []) as Hn by (apply Hne, Hgo; done). done.
          * right. split; [by exists fc|]. destruct Htx as [?|E]; [done|]. assert (tx <> []) as Hn by (by rewrite E). apply Hne, Hgo in Hn as (_ & _ & Hn). destruct (Hn Ez) as (fc' & A & B). congruence.
        + destruct Htx as [E|?]; [|done]. assert (tx <> []) as Hn by (apply Hne, Hgo; done). done.
      - rewrite Hne in Hb. unfold turned in Hturn. rewrite (rd_now _ _ _ _ _ _ R) in Hturn. split.
        + intros r Hr0%Hrec. rewrite Hr0 in Hturn. destruct Hturn as (r' & iv & Hr' & Hiv & Hcase). exists r', iv. split; [by apply Hrec'|]. split; [done|]. destruct b.
          * split; [done|]. intros Hno. by destruct Hno; apply Hb.
          * split; [|done]. intros Hyes. apply Hb in Hyes. done.
        + intros Hnone r' Hr'%Hrec'. destruct (find_out (nh_face h) (pe_out e)) as [r|] eqn:E; [apply Hrec in E; by destruct (Hnone r)|]. rewrite Hr' in Hturn. destruct Hturn as (-> & A & B). split; [by apply Hb|done]. }
    pose proof (best_face_spec kn (fun nh => next_hop_eligible (fw_faces s3) f i3 nh e (Some (now (fw_t s3)))) (fe_nexthops fe)) as Hb.
    destruct (best_face _ _ _) as [g|].
    { left. destruct Hb as (h & Hh & Hel & <- & Hpref). apply Hun in Hel as [Hel1 Hel2]. exists h. split; [|by apply Htry]. split; [done|]. split; [done|]. intros h' A B%Hun. by apply Hpref. }
    right. split; [intros h Hh Hm1 Hu; specialize (Hb h Hh); simpl in Hb; assert (Hx : next_hop_eligible (fw_faces s3) f i3 h e (Some (now (fw_t s3))) = true) by (by apply Hun); congruence|].
    pose proof (earliest_spec (fw_faces s3) f i3 e (fe_nexthops fe) None) as Hear. cbv zeta in Hear.
    destruct (earliest_out (fw_faces s3) f i3 (fe_nexthops fe) e None) as [[h|]|]; [| |done].
    - left. destruct Hear as (t & [?|(Hh & Hel & r & Hro & Ht')] & Hmin & _); [done|]. apply Hmg in Hel. exists h, r.
      split; [done|]. split; [done|]. split; [by apply Hrec|]. split; [|by apply Htry]. intros h' r' Hh' Hm' Hr'. rewrite Ht'. apply (Hmin h'); [done|by apply Hmg|by apply Hrec].
    - right. destruct Hear as [_ Hnone]. apply run_done in Hrun. subst s'. split; [intros h Hh Hm1%Hmg; by apply (Hnone h)|]. unfold added. by rewrite (rd_log _ _ _ _ _ _ R).
  Qed.

  (** ** The contracts of the forwarder's theorems *)
  Lemma obeys_resend (R : fw -> Prop) (K : fw -> act -> Prop) c k s e g : (forall s', R s' -> K s' (AInterest Trigger None false g)) -> R s -> obeys R K s (resend c k s e g).
  Proof.
    intros Hi Hs. unfold resend. destruct (decide_per_upstream _ _ _ _) as [[dec si]|]; [|constructor].
    assert (Hset : forall q, obeys R K s q -> obeys R K s ((match si with Some si => POutInfo g si | None => fun q => q end) q)) by (intros q Hq; destruct si; [by constructor|done]). apply Hset.
    destruct dec; [| |constructor]; (constructor; [by apply Hi|]); intros b; [constructor|]. destruct b; [|constructor].
    apply obeys_with. intros s3 e3 Hs3 He3. destruct (find_out _ _); [|constructor]. destruct (increment_interval _ _); [|constructor]. constructor. constructor.
  Qed.
  Lemma probe_scope F f g i nh : probe_allowed F f g i nh = true -> scope_ok F f (i_name i) (nh_face nh).
  Proof.
    unfold probe_allowed. destruct (F !! f) as [infc|] eqn:Hf; [|done]. destruct (F !! nh_face nh) as [outfc|] eqn:Eg; [|done]. rewrite negb_true_iff, !orb_false_iff. intros [_ Hsc]. revert Hsc.
    unfold would_violate_scope, scope_ok. rewrite <- is_localhost_spec, <- is_localhop_spec.
    assert (Hg : (exists fc, F !! nh_face nh = Some fc /\ fc_local fc = true) <-> fc_local outfc = true).
    { rewrite Eg. split; [intros (fc & [= <-] & ?); done|by exists outfc]. }
    assert (Hi : (exists fc, F !! f = Some fc /\ fc_local fc = true) <-> fc_local infc = true).
    { rewrite Hf. split; [intros (fc & [= <-] & ?); done|by exists infc]. }
    rewrite Hg, Hi. destruct (fc_local outfc), (is_localhost (i_name i)), (is_localhop (i_name i)), (fc_local infc); simpl; intuition congruence.
  Qed.
  Lemma obeys_asf (R : fw -> Prop) (K : fw -> act -> Prop) c i f k s :
    (forall s s' nh e w, R s -> R s' -> next_hop_eligible (fw_faces s) f i nh e w = true -> K s' (AInterest Trigger None false (nh_face nh))) ->
    (forall s nh g x, R s -> probe_allowed (fw_faces s) f g i nh = true -> K s (AInterest Trigger (Some x) false (nh_face nh))) ->
    (forall s r g, K s (Fw_Spec.ANack r g)) -> (forall s, K s (ATimer 0)) -> obeys R K s (asf_interest know due double_of c i f k).
  Proof.
    intros Hi Hp Hn Ht. apply obeys_with. intros s1 e Hs He. destruct (lookup_fib s1 e) as [fe|]; [|constructor]. cbv zeta. destruct (negb _).
    - pose proof (best_face_spec (know s1 (fe_prefix fe) (i_name i)) (fun nh => next_hop_eligible (fw_faces s1) f i nh e None) (fe_nexthops fe)) as Hb. destruct (best_face _ _ _) as [g|].
      + destruct Hb as (h & _ & Hel & <- & _). constructor; [by eapply Hi|]. intros _. constructor. intros s2 Hs2. destruct (due _ _ _); [|constructor]. constructor. intros x.
        pose proof (face_to_probe_spec (know s2 (fe_prefix fe) (i_name i)) (probe_allowed (fw_faces s2) f (nh_face h) i) (double_of x) (fe_nexthops fe)) as Hpr. destruct (face_to_probe _ _ _ _) as [[g'|]|]; [|constructor|constructor].
        destruct Hpr as (h' & _ & Hal & <- & _). constructor. intros y. constructor; [by eapply Hp|]. intros _. constructor.
      + constructor; [apply Hn|]. constructor; [apply Ht|constructor].
    - pose proof (best_face_spec (know s1 (fe_prefix fe) (i_name i)) (fun nh => next_hop_eligible (fw_faces s1) f i nh e (Some (now (fw_t s1)))) (fe_nexthops fe)) as Hb. destruct (best_face _ _ _) as [g|].
      + destruct Hb as (h & _ & Hel & <- & _). apply obeys_resend; [|done]. intros s2 Hs2. by eapply (Hi s1).
      + pose proof (earliest_spec (fw_faces s1) f i e (fe_nexthops fe) None) as He'. destruct (earliest_out _ _ _ _ _ _) as [[nh|]|]; [|constructor|constructor].
        destruct He' as (t & [?|(_ & Hel & _)] & _); [done|]. apply obeys_resend; [|done]. intros s2 Hs2. by eapply (Hi s1).
  Qed.
  (** An Interest that loops is answered with a Nack of reason Duplicate, over a point-to-point link only *)
  Theorem C60_loop s f i s' p inst order c : reachable s -> ev_ok s (EvInterest f i) -> step s (EvInterest f i) = Some s' -> strategies inst = asf order c ->
    i_hop i <> Some 0%N -> (localhost (i_name i) -> local_face s f) ->
    Dnl_Model.dnl_has make_entry (fw_dnl s) (i_name i) (i_nonce i) = true \/ looping s f i ->
    governs (fun m => sc_at (fw_t s) m) (i_name i) p inst ->
    (p2p_face s f -> exists j, one_hop i j /\ i_nonce j = i_nonce i /\ i_token j = i_token i /\ added s s' [Tx_nack f j 100; Rx_interest f i]) /\
    (~ p2p_face s f -> added s s' [Rx_interest f i]).
  Proof.
    intros R Ho H Hst Hh Hs Hl Hg. destruct (loop_exact _ _ _ _ _ _ _ s f i s' p inst (proj1 (reachable_inv _ _ _ _ _ _ _ W _ R)) Ho H Hh Hs Hl Hg) as [H1 H2]. rewrite Hst in *. split; [intros Hp; by apply H1|intros Hp; apply H2; by left].
  Qed.
End props.

(** ASF respects scope, probes included ... *)
Theorem C24_asf know due has_info double_of order c : scoped (asf_strategy know due has_info double_of order c).
Proof.
  assert (Hb : forall (R : fw -> Prop) (K : fw -> act -> Prop) d f k s, (forall s, K s (ATimer 50)) -> obeys R K s (asf_before has_info d f k)) by (intros R K d f k s HK; constructor; intros s' _; destruct (has_info _ _ _); [constructor; [apply HK|constructor]|constructor]).
  split; [|intros F d f k s _; by apply Hb|done| | |intros F a k s _; constructor].
  - intros F i f k s _. apply obeys_asf; [| |done|done].
    + intros s1 s2 nh e w [E1 _] E2 H. apply eligible_scope in H. by rewrite E1 in H.
    + intros s1 nh g x [E1 _] H. apply probe_scope in H. by rewrite E1 in H.
  - intros F i r f k s _. by apply obeys_process.
  - intros F nh k s _. constructor.
Qed.
(** ... leaves returning Data to the forwarder ... *)
Theorem C27_asf know due has_info double_of order c : default_data (asf_strategy know due has_info double_of order c).
Proof. split; [done|]. intros d f k s. constructor. intros s' _. simpl. destruct (has_info _ _ _); [by constructor; [|constructor]|constructor]. Qed.
(** ... and does not touch the expiry timers, but to let entries expire at once, except when Data has
    come back from a face it measures: then the entry is kept for 50 ms *)
Theorem C29_asf know due has_info double_of order c : let st := asf_strategy know due has_info double_of order c in
  (forall i f k, rejects_only True (st_interest st i f k)) /\ (forall i r f k, rejects_only True (st_nack st i r f k)) /\
  (forall nh k, rejects_only True (st_newhop st nh k)) /\ (forall a k, rejects_only True (st_async st a k)) /\
  (forall rand face_order d f k s, run rand face_order None k (st_before st d f k) s =
     if has_info s (pk_name k) f then set_expiry k 50 s else Some (s, tt)).
Proof.
  split; [|split; [|split; [|split]]].
  - intros i f k s. by apply obeys_asf.
  - intros i r f k s. by apply obeys_process.
  - intros nh k s. constructor.
  - intros a k s. constructor.
  - intros rand face_order d f k s. simpl. unfold bind at 1, get at 1. destruct (has_info s (pk_name k) f); simpl; [|done]. unfold bind. by destruct (set_expiry k 50 s) as [[? []]|].
Qed.

(** ** Cases that meet the hypotheses
    The nexthops of /1 are 257, of cost 20, and 258, of cost 10; 258 has timed out, 257 is working, 259 is not measured *)
Definition ex_know (_ : fw) (_ _ : name) : known_of := fun g =>
  if (g =? 258)%N then Some (RTT_TIMEOUT, 5000)%Z else if (g =? 257)%N then Some (40000, 40000)%Z else None.
Definition ex_due (s : fw) (_ _ : name) : bool := (now (fw_t s) =? 1000000)%Z.
Definition ex_asf : strategy := asf_strategy ex_know ex_due (fun _ _ _ => true) (fun _ => (1, 2)%Z) id retx_default.
Definition asf_evs : list event := st_evs ++ [EvFibAdd [gc 1] 259 30].
(** nonces and faces of the Interests sent *)
Definition asf_out (s : fw) : list (N * N) := rev (omap (fun x => match x with Tx_interest g j => Some (i_nonce j, g) | _ => None end) (fw_log s)).
Example C60_new_ex :
  (* to 257, which works *)
  st_holds ex_asf (asf_evs ++ [ask 1]) (fun s => bool_decide (asf_out s = [(1, 257)%N])) = true /\
  (* with a probe, of another nonce, to 259 *)
  st_holds ex_asf (asf_evs ++ [ms 1; ask 1]) (fun s => bool_decide (asf_out s = [(1, 257); (0, 259)]%N)) = true /\
  st_holds ex_asf (ex_faces ++ [ask 1]) (fun s => bool_decide (nacks (fw_log s) = [(256, 150)%N])) = true /\
  asks_of ex_asf asf_evs 1 && asks_of ex_asf (asf_evs ++ [ms 1]) 1 && asks_of ex_asf ex_faces 1 = true.
Proof. by vm_compute. Qed.
Example C60_again_ex :
  (* to the next best that is not waited for, not suppressed as it was not used *)
  st_holds ex_asf (asf_evs ++ [ask 1; ms 9; ask 2]) (fun s => bool_decide (asf_out s = [(1, 257); (2, 259)]%N)) = true /\
  st_holds ex_asf (asf_evs ++ [ask 1; ms 9; ask 2; ms 1; ask 3]) (fun s => bool_decide (asf_out s = [(1, 257); (2, 259); (3, 258)]%N)) = true /\
  (* then to the one used longest ago *)
  st_holds ex_asf (asf_evs ++ [ask 1; ms 5; ask 2; ms 1; ask 3; ms 1; ask 4]) (fun s => bool_decide (asf_out s = [(1, 257); (2, 259); (3, 258)]%N)) = true /\
  st_holds ex_asf (asf_evs ++ [ask 1; ms 5; ask 2; ms 1; ask 3; ms 5; ask 4]) (fun s => bool_decide (asf_out s = [(1, 257); (2, 259); (3, 258); (4, 257)]%N)) = true /\
  asks_of ex_asf (asf_evs ++ [ask 1; ms 5]) 2 && asks_of ex_asf (asf_evs ++ [ask 1; ms 5; ask 2; ms 1; ask 3; ms 5]) 4 = true.
Proof. vm_compute. done. Qed.
Print Assumptions C60_new.
Print Assumptions C60_again.
Print Assumptions C24_asf.
Print Assumptions C27_asf.
Print Assumptions C29_asf.
Print Assumptions C60_loop.
