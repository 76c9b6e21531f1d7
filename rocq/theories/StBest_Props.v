(** C36: the best-route strategy, as part of the forwarder. *)
From stdpp Require Import gmap.
From Verif Require Import Lib Name_Model Name_Proof Packet_Model Nt_Model Nt_Spec Tree_Model Tree_Proof Tab_Model Tab_Spec Tab_At Tab_Fib Tab_Pit Tab_Pit2 Tab_Sc Tab_Run Tab_Main Fw_Model Fw_Spec Fw_Inv Fw_Case Fw_Case2 Fw_Case3 Fw_Hist Fw_Acc Fw_Step Fw_Out Fw_Main Fw_Data Fw_Ex FwFace_Props St_Model St_Retx St_Spec St_Dec St_Run St_At St_Best.
From Verif Require Cs_Model Cs_Spec Cs_Main Dnl_Model.

Section props.
  Variable sort_nexthops : list nexthop -> list nexthop.
  Variable create_strategy : name -> create_result.
  Variable same_type : name -> name -> bool.
  Variable make_entry : name -> N -> Dnl_Model.fingerprint.
  Variable rand : nat -> nat.
  Variable face_order : list N -> list N.
  Variable strategies : name -> strategy.
  Notation step := (fw_step sort_nexthops create_strategy same_type make_entry rand face_order strategies).
  Notation reachable := (fw_reachable sort_nexthops create_strategy same_type make_entry rand face_order strategies).
  Hypothesis W : world_ok sort_nexthops same_type face_order.

  (** an Interest [i] from face [f] reaches the strategy [inst] chosen for its name *)
  Definition reaches (s : fw) (f : N) (i : interest) (inst : name) : Prop :=
    ev_ok s (EvInterest f i) /\ takes_interest make_entry s (EvInterest f i) (key_of i) f i /\ i_nexthop i = None /\ not_cached s i /\
    exists p, governs (fun m => sc_at (fw_t s) m) (i_name i) p inst.
  (** [i] goes on to face [g], to which it is sent unless its hop limit is used up, and nothing else is sent *)
  Definition goes_on (s s' : fw) (f : N) (i : interest) (g : N) : Prop :=
    exists j tx, one_hop i j /\ i_nonce j = i_nonce i /\ i_token j = None /\ sent s g j tx /\ added s s' (tx ++ [Rx_interest f i]).

  (** a new Interest goes to the cheapest nexthop it may go to; if there is none it is turned down with
      a Nack NoRoute, on a point-to-point face, and its entry expires at once *)
  Theorem C36_new s f i s' inst order c : reachable s -> reaches s f i inst -> strategies inst = best_route order c ->
    step s (EvInterest f i) = Some s' -> idle (now (fw_t s)) (outs_of s (key_of i)) ->
    exists hint l, hint_for s i hint /\ nexthops_for s hint (i_name i) l /\
      ((exists h, cheapest (fun h => may_go s f (i_name i) (nh_face h)) l h /\ goes_on s s' f i (nh_face h)) \/
       ((forall h, h ∈ l -> ~ may_go s f (i_name i) (nh_face h)) /\
        (p2p_face s f -> exists j, one_hop i j /\ i_nonce j = i_nonce i /\ i_token j = i_token i /\ added s s' [Tx_nack f j 150; Rx_interest f i]) /\
        (~ p2p_face s f -> added s s' [Rx_interest f i]) /\
        exists e', pit_at (fw_t s') (key_of i) = Some e' /\ pe_timer e' = Some (now (fw_t s)))).
  Proof.
    intros Hr (Ho & Ht & Hnh & Hc & p & Hg) Hst H Hidle. destruct (at_strategy _ _ _ _ _ _ _ W s f i s' p inst Hr Ho H Ht Hnh Hc Hg) as (i3 & e & s3 & R & Hrun).
    rewrite Hst in Hrun. simpl in Hrun. unfold best_route_interest in Hrun. apply run_with in Hrun as (e0 & He0 & Hrun). rewrite (rd_at _ _ _ _ _ _ R) in He0. injection He0 as <-.
    assert (Hdec : decide_per_pit c (now (fw_t s3)) e = Some (RNew, None)).
    { unfold decide_per_pit. rewrite (rd_now _ _ _ _ _ _ R). rewrite <- (rd_out _ _ _ _ _ _ R) in Hidle. apply idle_spec in Hidle. by rewrite Hidle. }
    rewrite Hdec in Hrun. simpl in Hrun. destruct (lookup_fib s3 e) as [fe|] eqn:El; [|done].
    destruct (lookup_nexthops s3 e fe (rd_inv _ _ _ _ _ _ R) El) as [Hn Hok]. apply (nexthops_ext s) in Hn; [|apply R]. rewrite (rd_name _ _ _ _ _ _ R) in Hn.
    exists (i_hint (pe_interest e)), (fe_nexthops fe). split; [apply R|]. split; [done|].
    pose proof (find_cheapest (fun nh => next_hop_eligible (fw_faces s3) f i3 nh e None) (fun h => may_go s f (i_name i) (nh_face h)) (fe_nexthops fe) (proj1 Hok)) as Hfind.
    specialize (Hfind ltac:(intros h _; apply (ready_may_go s); [apply Ho|done])).
    destruct (List.find _ _) as [h|].
    - left. exists h. split; [done|]. eapply (run_last_interest _ _ s) in Hrun as (j & tx & A1 & A2 & A3 & A4 & A5 & _); [|exact R|apply Ho|done|apply did_refl; apply R]. by exists j, tx.
    - right. split; [done|]. eapply (run_reject _ _ s) in Hrun as (A1 & A2 & _ & A3); [|exact R|done|apply did_refl; apply R|done]. done.
  Qed.
  (** an Interest that is being retrieved is suppressed if less than the suppression interval has
      passed since it was last sent: nothing is sent *)
  Theorem C36_suppressed s f i s' inst order c iv last : reachable s -> reaches s f i inst -> strategies inst = best_route order c ->
    step s (EvInterest f i) = Some s' -> ~ idle (now (fw_t s)) (outs_of s (key_of i)) -> last_sent (outs_of s (key_of i)) last ->
    interval_now c (info_of s (key_of i)) iv -> (now (fw_t s) - last < iv * 1000000)%Z ->
    added s s' [Rx_interest f i] /\ stored_interval (info_of s' (key_of i)) (Some iv).
  Proof.
    intros Hr (Ho & Ht & Hnh & Hc & p & Hg) Hst H Hidle Hlast Hiv Hlt. destruct (at_strategy _ _ _ _ _ _ _ W s f i s' p inst Hr Ho H Ht Hnh Hc Hg) as (i3 & e & s3 & R & Hrun).
    rewrite Hst in Hrun. simpl in Hrun. unfold best_route_interest in Hrun. apply run_with in Hrun as (e0 & He0 & Hrun). rewrite (rd_at _ _ _ _ _ _ R) in He0. injection He0 as <-.
    rewrite <- (rd_out _ _ _ _ _ _ R) in Hidle, Hlast. rewrite <- (rd_info _ _ _ _ _ _ R) in Hiv. rewrite <- (rd_now _ _ _ _ _ _ R) in Hidle, Hlt.
    destruct (Z.le_gt_cases (iv * 1000000) 9223372036854775807) as [Hmax|Hmax].
    - assert (Hdec : exists si, decide_per_pit c (now (fw_t s3)) e = Some (RSuppress, Some si) /\ stored_interval si (Some iv)).
      { apply last_spec in Hlast. apply interval_spec in Hiv. rewrite <- idle_spec in Hidle. apply not_false_is_true in Hidle. unfold decide_per_pit, within. rewrite Hidle, Hlast, Hiv. simpl.
        change NS_PER_MS with 1000000%Z. change INT64_MAX with 9223372036854775807%Z. destruct (Z.ltb_spec 9223372036854775807 (iv * 1000000)); [lia|]. destruct (Z.ltb_spec (now (fw_t s3) - last) (iv * 1000000)); [|lia].
        eexists. split; [done|]. apply info_set_stored. }
      destruct Hdec as (si & Hdec & Hsi). rewrite Hdec in Hrun. simpl set_info in Hrun. apply run_info in Hrun as (e1 & s1 & D & Hrun); [|apply R]. apply run_done in Hrun. subst s1.
      split; [unfold added; by rewrite (dd_log _ _ _ _ _ _ D), (rd_log _ _ _ _ _ _ R)|]. unfold info_of. by rewrite (did_after _ _ _ _ _ _ D).
    - exfalso. apply last_spec in Hlast. apply interval_spec in Hiv. rewrite <- idle_spec in Hidle. apply not_false_is_true in Hidle. unfold decide_per_pit, within in Hrun. rewrite Hidle, Hlast, Hiv in Hrun. simpl in Hrun.
      change NS_PER_MS with 1000000%Z in Hrun. change INT64_MAX with 9223372036854775807%Z in Hrun. destruct (Z.ltb_spec 9223372036854775807 (iv * 1000000)); [done|lia].
  Qed.
  (** otherwise it goes to the cheapest nexthop it may go to that is not waited for; if there is none to
      the one it was sent to longest ago; if it may go to no nexthop, nowhere.  The suppression
      interval grows *)
  Theorem C36_retx s f i s' inst order c iv last : reachable s -> reaches s f i inst -> strategies inst = best_route order c ->
    step s (EvInterest f i) = Some s' -> ~ idle (now (fw_t s)) (outs_of s (key_of i)) -> last_sent (outs_of s (key_of i)) last ->
    interval_now c (info_of s (key_of i)) iv -> (iv * 1000000 <= now (fw_t s) - last)%Z ->
    (exists iv', grow c iv = Some iv' /\ stored_interval (info_of s' (key_of i)) (Some iv')) /\
    exists hint l, hint_for s i hint /\ nexthops_for s hint (i_name i) l /\
      ((exists h, cheapest (fun h => may_go s f (i_name i) (nh_face h) /\ unused s (key_of i) (nh_face h)) l h /\ goes_on s s' f i (nh_face h)) \/
       ((forall h, h ∈ l -> may_go s f (i_name i) (nh_face h) -> ~ unused s (key_of i) (nh_face h)) /\
        ((exists h r, h ∈ l /\ may_go s f (i_name i) (nh_face h) /\ out_record_of s (key_of i) (nh_face h) r /\
            (forall h' r', h' ∈ l -> may_go s f (i_name i) (nh_face h') -> out_record_of s (key_of i) (nh_face h') r' -> (fr_renewed (or_rec r) <= fr_renewed (or_rec r'))%Z) /\
            goes_on s s' f i (nh_face h)) \/
         ((forall h, h ∈ l -> ~ may_go s f (i_name i) (nh_face h)) /\ added s s' [Rx_interest f i])))).
  Proof.
    intros Hr (Ho & Ht & Hnh & Hc & p & Hg) Hst H Hidle Hlast Hiv Hle. destruct (at_strategy _ _ _ _ _ _ _ W s f i s' p inst Hr Ho H Ht Hnh Hc Hg) as (i3 & e & s3 & R & Hrun).
    rewrite Hst in Hrun. simpl in Hrun. unfold best_route_interest in Hrun. apply run_with in Hrun as (e0 & He0 & Hrun). rewrite (rd_at _ _ _ _ _ _ R) in He0. injection He0 as <-.
    rewrite <- (rd_out _ _ _ _ _ _ R) in Hidle, Hlast. rewrite <- (rd_info _ _ _ _ _ _ R) in Hiv. rewrite <- (rd_now _ _ _ _ _ _ R) in Hidle, Hle.
    destruct (decide_per_pit c (now (fw_t s3)) e) as [[dec si]|] eqn:Edec; [|done].
    assert (Hdec : dec = RForward /\ exists iv', grow c iv = Some iv' /\ si = Some (info_set RETX_INFO [iv'] (pe_info e))).
    { apply last_spec in Hlast. apply interval_spec in Hiv. rewrite <- idle_spec in Hidle. apply not_false_is_true in Hidle. unfold decide_per_pit, within in Edec. rewrite Hidle, Hlast, Hiv in Edec. simpl in Edec.
      change NS_PER_MS with 1000000%Z in Edec. destruct (Z.ltb INT64_MAX (iv * 1000000)); [done|]. destruct (Z.ltb_spec (now (fw_t s3) - last) (iv * 1000000)); [lia|].
      destruct (grow c iv) as [iv'|]; [|done]. injection Edec as <- <-. split; [done|]. by exists iv'. }
    destruct Hdec as (-> & iv' & Hgr & ->). clear Edec. simpl set_info in Hrun. apply run_info in Hrun as (e1 & s1 & D & Hrun); [|apply R].
    assert (e1 = e) as -> by (pose proof (did_before _ _ _ _ _ _ D) as E1; rewrite (rd_at _ _ _ _ _ _ R) in E1; by injection E1).
    assert (Hinfo : forall s'', info_of s'' (key_of i) = pe_info (with_info (info_set RETX_INFO [iv'] (pe_info e)) e) -> stored_interval (info_of s'' (key_of i)) (Some iv')) by (intros s'' ->; apply info_set_stored).
    destruct (lookup_fib s3 e) as [fe|] eqn:El; [|done].
    destruct (lookup_nexthops s3 e fe (rd_inv _ _ _ _ _ _ R) El) as [Hn Hok]. apply (nexthops_ext s) in Hn; [|apply R]. rewrite (rd_name _ _ _ _ _ _ R) in Hn.
    set (P h := may_go s f (i_name i) (nh_face h) /\ unused s (key_of i) (nh_face h)).
    pose proof (find_cheapest (fun nh => next_hop_eligible (fw_faces s3) f i3 nh e (Some (now (fw_t s3)))) P (fe_nexthops fe) (proj1 Hok)) as Hfind.
    assert (Hmg : forall h, next_hop_eligible (fw_faces s3) f i3 h e None = true <-> may_go s f (i_name i) (nh_face h)) by (intros h; apply (ready_may_go s); [apply Ho|done]).
    specialize (Hfind ltac:(intros h _; etransitivity; [apply (eligible_unused s3 f i3 h e (key_of i)); apply R|]; rewrite Hmg, (ready_unused _ _ _ _ _ _ _ R); done)).
    destruct (List.find _ _) as [h|].
    { eapply (run_last_interest _ _ s) in Hrun as (j & tx & A1 & A2 & A3 & A4 & A5 & A6); [|exact R|apply Ho|done|exact D]. split; [exists iv'; split; [done|by apply Hinfo]|].
      exists (i_hint (pe_interest e)), (fe_nexthops fe). split; [apply R|]. split; [done|]. left. exists h. split; [done|]. by exists j, tx. }
    pose proof (earliest_spec (fw_faces s3) f i3 e (fe_nexthops fe) None) as Hear. cbv zeta in Hear.
    pose proof (rd_inv _ _ _ _ _ _ R) as I3. destruct (entry_ok _ _ _ I3 (rd_at _ _ _ _ _ _ R)) as [[_ N2 _ _] _].
    assert (Hrec : forall g r, find_out g (pe_out e) = Some r <-> out_record_of s (key_of i) g r).
    { intros g r. rewrite outs_record, <- (rd_out _ _ _ _ _ _ R). split; [apply find_out_Some|]. intros [A <-]. by apply elem_find_out. }
    assert (Hno : forall h, h ∈ fe_nexthops fe -> may_go s f (i_name i) (nh_face h) -> ~ unused s (key_of i) (nh_face h)) by (intros h Hh Hm Hu; by apply (Hfind h Hh)).
    destruct (earliest_out (fw_faces s3) f i3 (fe_nexthops fe) e None) as [[h|]|]; [| |done].
    - destruct Hear as (t & [?|(Hh & Hel & r & Hro & Ht')] & Hmin & _); [done|].
      eapply (run_last_interest _ _ s) in Hrun as (j & tx & A1 & A2 & A3 & A4 & A5 & A6); [|exact R|apply Ho|done|exact D]. split; [exists iv'; split; [done|by apply Hinfo]|].
      exists (i_hint (pe_interest e)), (fe_nexthops fe). split; [apply R|]. split; [done|]. right. split; [done|]. left. exists h, r.
      split; [done|]. split; [by apply Hmg|]. split; [by apply Hrec|]. split; [|by exists j, tx]. intros h' r' Hh' Hm' Hr'. rewrite Ht'. apply (Hmin h'); [done|by apply Hmg|by apply Hrec].
    - destruct Hear as [_ Hnone]. apply run_done in Hrun. subst s1. split; [exists iv'; split; [done|]; apply Hinfo; unfold info_of; by rewrite (did_after _ _ _ _ _ _ D)|].
      exists (i_hint (pe_interest e)), (fe_nexthops fe). split; [apply R|]. split; [done|]. right. split; [done|]. right.
      split; [intros h Hh Hm%Hmg; by apply (Hnone h)|]. unfold added. by rewrite (dd_log _ _ _ _ _ _ D), (rd_log _ _ _ _ _ _ R).
  Qed.
End props.
Print Assumptions C36_new.
Print Assumptions C36_suppressed.
Print Assumptions C36_retx.
