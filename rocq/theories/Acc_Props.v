(** C65: the access strategy. *)
From stdpp Require Import gmap.
From Verif Require Import Lib Name_Model Name_Proof Packet_Model Nt_Model Nt_Spec Tree_Model Tree_Proof Tab_Model Tab_Spec Tab_At Tab_Fib Tab_Pit Tab_Pit2 Tab_Meas Tab_Sc Tab_Run Tab_Main Fw_Model Fw_Spec Fw_Inv Fw_Case Fw_Case2 Fw_Case3 Fw_Hist Fw_Acc Fw_Step Fw_Out Fw_Main Fw_Data Fw_Loop Fw_Ex FwFace_Props St_Model St_Retx St_Spec St_Dec St_Run St_At St_Best St_Multi St_Nack StRetx_Props StBest_Props StFw_Props Fib_Props Acc_Model Acc_Spec Acc_Run.
From Verif Require Cs_Model Cs_Spec Cs_Main Dnl_Model.

Lemma read_run rand face_order trig k g s : run rand face_order trig k (PRead g) s = run rand face_order trig k (g s) s.
Proof. done. Qed.
Lemma nexthops_exist s hint n l h : Inv s -> nexthops_for s hint n l -> h ∈ l -> face_exists s (nh_face h).
Proof.
  intros I. assert (Hr : forall d, route_for s d l -> h ∈ l -> face_exists s (nh_face h)).
  { intros d (p & fe & _ & Hf & <- & _) Hh. by apply (proj2 (iv_fib _ I p fe Hf)). }
  unfold nexthops_for. destruct hint; intros H Hh.
  - destruct H as [H|[_ ->]]; [by eapply Hr|by apply elem_of_nil in Hh].
  - destruct H as [(h1 & d & h2 & _ & _ & H)|[_ ->]]; [by eapply Hr|by apply elem_of_nil in Hh].
Qed.
Lemma governs_ext (g h : name -> option name) n p i : (forall m, g m = h m) -> governs g n p i <-> governs h n p i.
Proof.
  intros H. unfold governs. rewrite (H p). assert (longest_defined g n p <-> longest_defined h n p) as ->; [|done]. split; apply longest_ext; intros m; by rewrite H.
Qed.
Lemma choice_ext s s' n m : (forall x, sc_at (fw_t s') x = sc_at (fw_t s) x) -> same_choice s' n m <-> same_choice s n m.
Proof.
  intros H. unfold same_choice. split; intros (p & i & H1 & H2); exists p, i; split;
    (eapply governs_ext; [|first [exact H1|exact H2]]); intros x; simpl; by rewrite H.
Qed.
Lemma remembers_ext s s' n g l : (forall x, meas_at (fw_t s') x = meas_at (fw_t s) x) -> (forall x, sc_at (fw_t s') x = sc_at (fw_t s) x) ->
  remembers s' n g l <-> remembers s n g l.
Proof.
  intros Hm Hs. unfold remembers. split; intros (p & m & z & H1 & H2 & H3 & H4); exists p, m, z;
    (split; [eapply longest_ext; [|exact H1]; intros x; simpl; by rewrite Hm|]); (split; [by rewrite <- H2|]); (split; [by apply (choice_ext s s' n p Hs)|done]).
Qed.

Section props.
  Variable sort_nexthops : list nexthop -> list nexthop.
  Variable create_strategy : name -> create_result.
  Variable same_type : name -> name -> bool.
  Variable make_entry : name -> N -> Dnl_Model.fingerprint.
  Variable rand : nat -> nat.
  Variable face_order : list N -> list N.
  Variable strategies : name -> strategy.
  Notation step := (fw_step sort_nexthops create_strategy same_type make_entry rand face_order strategies).
  Notation reachable := (fw_reachable sort_nexthops create_strategy same_type make_entry rand face_order strategies).
  Hypothesis W : world_ok sort_nexthops same_type face_order.
  Notation inv_of R := (proj1 (reachable_inv _ _ _ _ _ _ _ W _ R)).
  (** the RTT estimator: the timeout it estimates from samples; the samples of a face *)
  Variable rto_of : list Z -> Z.
  Variable fit : fw -> pit_key -> N -> list Z.
  Notation access := (access_strategy rto_of fit).

  (** the nexthop that answered last can be used: it is not where the Interest comes from, it still is a nexthop, and scope allows it *)
  Definition usable (s : fw) (f : N) (n : name) (l : list nexthop) (g : N) : Prop :=
    g <> 0%N /\ (exists h, h ∈ l /\ nh_face h = g) /\ may_pass s f n g.
  Lemma usable_spec s infc f i l g : fw_faces s !! f = Some infc -> (forall h, h ∈ l -> face_exists s (nh_face h)) ->
    last_usable (fw_faces s) infc i f g l = true <-> usable s f (i_name i) l g.
  Proof using.
    intros Hf Hex. unfold last_usable, usable. destruct (N.eqb_spec g 0); simpl; [by split; [|intros []]|]. destruct (N.eqb_spec g f); simpl; [by split; [|intros (_ & _ & ? & _)]|].
    assert (Hin : existsb (fun nh => (nh_face nh =? g)%N) l = true <-> exists h, h ∈ l /\ nh_face h = g).
    { rewrite existsb_exists. split; intros (h & H1 & H2); exists h; (split; [by apply elem_of_list_In|]); by apply N.eqb_eq. }
    destruct (fw_faces s !! g) as [outfc|] eqn:Eg.
    - rewrite andb_true_iff, Hin. split.
      + intros [(h & Hh & Hg) Hv]. split; [done|]. split; [by exists h|]. subst g. apply (skips_spec s infc i f 0 h Hf); [by exists outfc|]. unfold skips. rewrite Eg.
        destruct (N.eqb_spec (nh_face h) f); [done|]. destruct (N.eqb_spec (nh_face h) 0); [done|]. simpl. by destruct (would_violate_scope infc i outfc).
      + intros (_ & (h & Hh & Hg) & Hp). split; [by exists h|]. subst g. assert (Hs : skips (fw_faces s) infc i f 0 h = false) by (apply (skips_spec s infc i f 0 h Hf); [by exists outfc|done]).
        unfold skips in Hs. rewrite Eg in Hs. apply orb_false_iff in Hs as [_ ->]. done.
    - split; [done|]. intros (_ & (h & Hh & Hg) & _). destruct (Hex h Hh) as [fc Hfc]. congruence.
  Qed.

  (** what is common: the strategy's turn on an Interest *)
  Notation all_of s f i l tx j := (sent_to_all s j l (fun g => may_pass s f (i_name i) g /\ g <> 0%N) tx).
  Definition passes_on (s s' : fw) (f : N) (i j : interest) : Prop := one_hop i j /\ i_nonce j = i_nonce i /\ i_token j = None.

  (** A new Interest goes to the nexthop that answered last and to no other, and a timeout is set.  If none is known, or it cannot be
      used, or the hop limit is used up, the Interest goes to all the nexthops it may go to; if there is none the entry expires at once. *)
  Theorem C65_new s f i s' inst : reachable s -> reaches make_entry s f i inst -> strategies inst = access ->
    step s (EvInterest f i) = Some s' -> idle (now (fw_t s)) (outs_of s (key_of i)) ->
    exists hint l j, hint_for s i hint /\ nexthops_for s hint (i_name i) l /\ passes_on s s' f i j /\
      (forall g samples, remembers s (i_name i) g samples -> usable s f (i_name i) l g -> leaves s j g ->
         added s s' [Tx_interest g j; Rx_interest f i] /\ armed s' (key_of i) (now (fw_t s) + rto_of samples) f g) /\
      ((forall g samples, remembers s (i_name i) g samples -> ~ (usable s f (i_name i) l g /\ leaves s j g)) ->
         exists tx, all_of s f i l tx j /\ added s s' (tx ++ [Rx_interest f i]) /\ info_of s' (key_of i) = info_of s (key_of i) /\
           (tx = [] -> exists e', pit_at (fw_t s') (key_of i) = Some e' /\ pe_timer e' = Some (now (fw_t s)))).
  Proof.
    intros Hr (Ho & Ht & Hnh & Hc & p & Hg) Hst H Hidle. destruct (at_strategy _ _ _ _ _ _ _ W s f i s' p inst Hr Ho H Ht Hnh Hc Hg) as (i3 & e & s3 & R & Hrun).
    pose proof (rd_inv _ _ _ _ _ _ R) as I3. pose proof (rd_at _ _ _ _ _ _ R) as Hat.
    rewrite Hst in Hrun. simpl in Hrun. unfold access_interest in Hrun. apply run_with in Hrun as (e0 & He0 & Hrun). rewrite Hat in He0. injection He0 as <-.
    rewrite <- (rd_out _ _ _ _ _ _ R), <- (rd_now _ _ _ _ _ _ R) in Hidle. rewrite (proj1 (C38_fixed ACCESS_RETX _ _ 0) Hidle) in Hrun.
    destruct (lookup_fib s3 e) as [fe|] eqn:El; [|done]. destruct (fw_faces s3 !! f) as [infc|] eqn:Ef; [|done].
    destruct (lookup_nexthops s3 e fe I3 El) as [Hn3 Hok]. assert (Hex : forall h, h ∈ fe_nexthops fe -> face_exists s3 (nh_face h)) by (intros h; by eapply nexthops_exist).
    pose proof Hn3 as Hn. apply (nexthops_ext s) in Hn; [|apply R]. rewrite (rd_name _ _ _ _ _ _ R) in Hn.
    assert (Hl3 : forall j, Some i3 = Some j -> (0 <= i_lifetime j)%Z) by (intros j [= <-]; rewrite (rd_life _ _ _ _ _ _ R); apply Ho).
    assert (Hpass : forall g, may_pass s3 f (i_name i3) g <-> may_pass s f (i_name i) g) by (intros g; unfold may_pass; by rewrite (rd_faces _ _ _ _ _ _ R), (ready_name _ _ _ _ _ _ R)).
    assert (Hlv : forall j g, leaves s3 j g <-> leaves s j g) by (intros j g; unfold leaves, local_face; by rewrite (rd_faces _ _ _ _ _ _ R)).
    assert (Hus : forall g, last_usable (fw_faces s3) infc i3 f g (fe_nexthops fe) = true <-> usable s f (i_name i) (fe_nexthops fe) g).
    { intros g. rewrite usable_spec by done. unfold usable. by rewrite Hpass. }
    assert (Hrem : forall g l, find_prefix_meas s3 (key_of i) = Some (g, l) <-> remembers s (i_name i) g l).
    { intros g l. rewrite remembers_spec by apply I3. apply remembers_ext; apply R. }
    cbv zeta in Hrun. set (to_all := access_multicast _ _ _ _ _ _ _ _ _) in Hrun.
    (* multicast *)
    assert (Hall : forall e1 s4, did (key_of i) e e1 [] s3 s4 -> pe_info e1 = pe_info e -> run rand face_order (Some i3) (key_of i) to_all s4 = Some (s', tt) ->
      exists tx, all_of s f i (fe_nexthops fe) tx (without_token i3) /\ added s s' (tx ++ [Rx_interest f i]) /\ info_of s' (key_of i) = info_of s (key_of i) /\
        (tx = [] -> exists e', pit_at (fw_t s') (key_of i) = Some e' /\ pe_timer e' = Some (now (fw_t s)))).
    { intros e1 s4 D Hinfo Hq. pose proof (dd_core _ _ _ _ _ _ D) as C. unfold to_all in Hq.
      apply (multicast_run rand face_order _ _ _ _ _ _ _ _ _ _ _ _ _ e1) in Hq as (e2 & tx & s5 & D5 & Hq & [Hnd Hx] & Hi2 & _);
        [|apply D|by apply (did_after _ _ _ _ _ _ D)|apply Hok|intros h Hh; unfold face_exists; rewrite (sc_faces _ _ C); by apply Hex|by rewrite (sc_faces _ _ C)|done|done|done].
      pose proof (dd_core _ _ _ _ _ _ D5) as C5. exists tx. split; [|].
      { split; [done|]. intros x. rewrite Hx. apply base.exist_proper. intros h. unfold may_pass, leaves, local_face. rewrite (sc_faces _ _ C), (rd_faces _ _ _ _ _ _ R), (ready_name _ _ _ _ _ _ R). done. }
      assert (Hlog : fw_log s5 = tx ++ [Rx_interest f i] ++ fw_log s) by (rewrite (dd_log _ _ _ _ _ _ D5), (dd_log _ _ _ _ _ _ D); simpl; by rewrite (rd_log _ _ _ _ _ _ R)).
      destruct tx as [|x tx]; [change (run rand face_order (Some i3) (key_of i) (PTimer 0 PDone) s5 = Some (s', tt)) in Hq|change (run rand face_order (Some i3) (key_of i) PDone s5 = Some (s', tt)) in Hq].
      - apply run_timer in Hq as (e3 & s6 & D6 & Hq); [|apply D5]. apply run_done in Hq. subst s6. pose proof (did_before _ _ _ _ _ _ D6) as E3. rewrite (did_after _ _ _ _ _ _ D5) in E3. injection E3 as <-.
        split; [unfold added; rewrite (dd_log _ _ _ _ _ _ D6); simpl; by rewrite Hlog|]. split.
        + unfold info_of at 1. rewrite (did_after _ _ _ _ _ _ D6). simpl. by rewrite Hi2, Hinfo, (rd_info _ _ _ _ _ _ R).
        + intros _. eexists. split; [exact (did_after _ _ _ _ _ _ D6)|]. simpl. f_equal. rewrite (sc_now _ _ C5), (sc_now _ _ C), (rd_now _ _ _ _ _ _ R). apply Z.add_0_r.
      - apply run_done in Hq. subst s5. split; [unfold added; rewrite <- app_assoc; exact Hlog|]. split; [|done]. unfold info_of at 1. rewrite (did_after _ _ _ _ _ _ D5). by rewrite Hi2, Hinfo, (rd_info _ _ _ _ _ _ R). }
    exists (i_hint (pe_interest e)), (fe_nexthops fe), (without_token i3). split; [apply R|]. split; [done|].
    split; [split; [exact (rd_hop _ _ _ _ _ _ R)|]; split; [exact (rd_nonce _ _ _ _ _ _ R)|done]|].
    destruct (find_prefix_meas s3 (key_of i)) as [[g0 samples0]|] eqn:Em.
    - pose proof (proj1 (Hrem g0 samples0) eq_refl) as Hr0.
      assert (Hfun : forall g l, remembers s (i_name i) g l -> g = g0 /\ l = samples0) by (intros g l Hx; apply Hrem in Hx; by injection Hx as -> ->).
      destruct (last_usable _ _ _ _ _ _) eqn:Eu.
      + apply Hus in Eu. apply (run_send rand face_order _ _ _ i3 _ _ _ _ e) in Hrun as (e1 & tx & s4 & b & D & Hrun & _ & Hcase); [|done..].
        destruct Hcase as [(-> & Hl & -> & ->)|(-> & Hl & -> & ->)]; apply Hlv in Hl || rewrite Hlv in Hl.
        * apply run_info in Hrun as (e2 & s5 & D5 & Hrun); [|apply D]. apply run_done in Hrun. subst s5. split.
          -- intros g samples [-> ->]%Hfun _ _. split.
             ++ unfold added. rewrite (dd_log _ _ _ _ _ _ D5), (dd_log _ _ _ _ _ _ D), (rd_log _ _ _ _ _ _ R). done.
             ++ unfold armed, info_of. rewrite (did_after _ _ _ _ _ _ D5). simpl. rewrite <- (rd_now _ _ _ _ _ _ R). apply item_set.
          -- intros Hno. exfalso. by apply (Hno g0 samples0 Hr0).
        * split; [intros g samples [-> ->]%Hfun _ ?; done|]. intros _. by eapply Hall.
      + split.
        * intros g samples [-> ->]%Hfun Hu _. apply Hus in Hu. congruence.
        * intros _. by apply (Hall e s3); [apply did_refl|..].
    - split; [intros g samples Hx%Hrem; done|]. intros _. by apply (Hall e s3); [apply did_refl|..].
  Qed.

  (** A retransmission less than 100 ms after the Interest was last sent is suppressed; otherwise it goes to all the nexthops it may go to. *)
  Theorem C65_retx s f i s' inst last : reachable s -> reaches make_entry s f i inst -> strategies inst = access ->
    step s (EvInterest f i) = Some s' -> ~ idle (now (fw_t s)) (outs_of s (key_of i)) -> last_sent (outs_of s (key_of i)) last ->
    ((now (fw_t s) - last < 100000000)%Z -> added s s' [Rx_interest f i] /\ outs_of s' (key_of i) = outs_of s (key_of i)) /\
    ((100000000 <= now (fw_t s) - last)%Z -> exists hint l j tx, hint_for s i hint /\ nexthops_for s hint (i_name i) l /\ passes_on s s' f i j /\
       all_of s f i l tx j /\ added s s' (tx ++ [Rx_interest f i])) /\
    info_of s' (key_of i) = info_of s (key_of i).
  Proof.
    intros Hr (Ho & Ht & Hnh & Hc & p & Hg) Hst H Hidle Hlast. destruct (at_strategy _ _ _ _ _ _ _ W s f i s' p inst Hr Ho H Ht Hnh Hc Hg) as (i3 & e & s3 & R & Hrun).
    pose proof (rd_inv _ _ _ _ _ _ R) as I3. pose proof (rd_at _ _ _ _ _ _ R) as Hat.
    rewrite Hst in Hrun. simpl in Hrun. unfold access_interest in Hrun. apply run_with in Hrun as (e0 & He0 & Hrun). rewrite Hat in He0. injection He0 as <-.
    rewrite <- (rd_out _ _ _ _ _ _ R), <- (rd_now _ _ _ _ _ _ R) in Hidle. rewrite <- (rd_out _ _ _ _ _ _ R) in Hlast.
    rewrite (proj2 (C38_fixed ACCESS_RETX _ _ last) Hidle Hlast) in Hrun. rewrite (rd_now _ _ _ _ _ _ R) in Hrun. change (ACCESS_RETX * 1000000)%Z with 100000000%Z in Hrun.
    case_decide as Hd.
    - apply run_done in Hrun. subst s'. split; [|split; [lia|]].
      + intros _. split; [exact (rd_log _ _ _ _ _ _ R)|]. unfold outs_of at 1. by rewrite Hat, (rd_out _ _ _ _ _ _ R).
      + unfold info_of at 1. by rewrite Hat, (rd_info _ _ _ _ _ _ R).
    - destruct (lookup_fib s3 e) as [fe|] eqn:El; [|done]. destruct (fw_faces s3 !! f) as [infc|] eqn:Ef; [|done].
      destruct (lookup_nexthops s3 e fe I3 El) as [Hn3 Hok]. assert (Hex : forall h, h ∈ fe_nexthops fe -> face_exists s3 (nh_face h)) by (intros h; by eapply nexthops_exist).
      pose proof Hn3 as Hn. apply (nexthops_ext s) in Hn; [|apply R]. rewrite (rd_name _ _ _ _ _ _ R) in Hn.
      assert (Hl3 : forall j, Some i3 = Some j -> (0 <= i_lifetime j)%Z) by (intros j [= <-]; rewrite (rd_life _ _ _ _ _ _ R); apply Ho).
      cbv zeta in Hrun. apply (multicast_run rand face_order _ _ _ _ _ _ _ _ _ _ _ _ _ e) in Hrun as (e2 & tx & s5 & D5 & Hrun & [Hnd Hx] & Hi2 & _); [|done|done|apply Hok|done|done|done|done|done].
      apply run_done in Hrun. subst s5. split; [lia|]. split.
      + intros _. exists (i_hint (pe_interest e)), (fe_nexthops fe), (without_token i3), tx. split; [apply R|]. split; [done|].
        split; [split; [exact (rd_hop _ _ _ _ _ _ R)|]; split; [exact (rd_nonce _ _ _ _ _ _ R)|done]|]. split.
        * split; [done|]. intros x. rewrite Hx. apply base.exist_proper. intros h. unfold may_pass, leaves, local_face. rewrite (rd_faces _ _ _ _ _ _ R), (ready_name _ _ _ _ _ _ R). done.
        * unfold added. rewrite (dd_log _ _ _ _ _ _ D5), (rd_log _ _ _ _ _ _ R). by rewrite <- app_assoc.
      + unfold info_of at 1. rewrite (did_after _ _ _ _ _ _ D5). by rewrite Hi2, (rd_info _ _ _ _ _ _ R).
  Qed.

  (** When the timeout has come, the Interest goes to the other nexthops it may go to, once; not before, and not if it is not set. *)
  Theorem C65_timeout s k s' inst arg : reachable s -> strategies inst = access -> step s (EvAsync inst arg k) = Some s' ->
    (forall t f g e r, armed s k t f g -> (t <= now (fw_t s))%Z -> pit_at (fw_t s) k = Some e -> face_exists s f -> find_in f (pe_in e) = Some r ->
       exists l tx, nexthops_for s (i_hint (pe_interest e)) (pk_name k) l /\
         sent_to_all s (without_token (ir_interest r)) l (fun h => may_pass s f (pk_name k) h /\ h <> g) tx /\ added s s' tx) /\
    (forall t f g, armed s k t f g -> (t <= now (fw_t s))%Z -> ~ face_exists s f -> added s s' []) /\
    (forall t f g, armed s k t f g -> (t <= now (fw_t s))%Z -> disarmed s' k) /\
    (forall t f g, armed s k t f g -> (now (fw_t s) < t)%Z -> s' = s) /\
    (disarmed s k -> s' = s).
  Proof.
    intros Hr Hst H. pose proof (inv_of Hr) as I. apply step_event in H. simpl in H. rewrite Hst in H. simpl in H. unfold bind at 1, get at 1 in H.
    unfold disarmed at 2. unfold armed, info_of. change (pit_get k (fw_t s)) with (pit_at (fw_t s) k) in H.
    assert (Hne : forall v, ~ item 1010 v []) by (intros v (si1 & si2 & E & _); by destruct si1).
    destruct (pit_at (fw_t s) k) as [e|] eqn:He.
    2: { apply run_done in H. split; [done|]. split; [intros t f g Hx; by destruct (Hne _ Hx)|]. split; [intros t f g Hx; by destruct (Hne _ Hx)|]. split; [intros t f g Hx; by destruct (Hne _ Hx)|done]. }
    assert (Hget : forall t f g, item 1010 [t; Z.of_N f; Z.of_N g] (pe_info e) -> info_get ACCESS_PIT (pe_info e) = Some [t; Z.of_N f; Z.of_N g]) by (intros t f g Hx; by apply item_get).
    assert (Hlast : no_item 1010 (pe_info e) -> s' = s) by (intros Hx%no_item_none; unfold ACCESS_PIT in H; rewrite Hx in H; by apply run_done in H).
    (* the timer's turn *)
    assert (Hturn : forall t f g, item 1010 [t; Z.of_N f; Z.of_N g] (pe_info e) -> (t <= now (fw_t s))%Z ->
      exists s1, did k e (with_info (info_del ACCESS_PIT (pe_info e)) e) [] s s1 /\
        run rand face_order None k (match fw_faces s !! f with None => PDone | Some infc => match find_in f (pe_in e), lookup_fib s e with
          | Some r, Some fe => access_multicast (fw_faces s) infc (OfInRecord f) (ir_interest r) f g (fe_nexthops fe) 0 (fun _ => PDone) | _, _ => PFail end end) s1 = Some (s', tt)).
    { intros t f g Hx Ht. rewrite (Hget _ _ _ Hx) in H. destruct (Z.ltb_spec (now (fw_t s)) t); [lia|]. apply run_info in H as (e1 & s1 & D & H); [|done].
      pose proof (did_before _ _ _ _ _ _ D) as E1. rewrite He in E1. injection E1 as <-. exists s1. split; [done|]. by rewrite !N2Z.id in H. }
    assert (Hmc : forall t f g infc r fe s1, item 1010 [t; Z.of_N f; Z.of_N g] (pe_info e) -> did k e (with_info (info_del ACCESS_PIT (pe_info e)) e) [] s s1 -> fw_faces s !! f = Some infc ->
      find_in f (pe_in e) = Some r -> lookup_fib s e = Some fe ->
      run rand face_order None k (access_multicast (fw_faces s) infc (OfInRecord f) (ir_interest r) f g (fe_nexthops fe) 0 (fun _ => PDone)) s1 = Some (s', tt) ->
      exists tx, sent_to_all s (without_token (ir_interest r)) (fe_nexthops fe) (fun h => may_pass s f (pk_name k) h /\ h <> g) tx /\ added s s' tx /\ info_of s' k = info_del ACCESS_PIT (pe_info e)).
    { intros t f g infc r fe s1 Hx D Hf Hin El Hq. destruct (lookup_nexthops s e fe I El) as [Hn Hok]. pose proof (dd_core _ _ _ _ _ _ D) as C.
      apply (multicast_run rand face_order _ _ _ _ _ _ _ _ _ _ _ _ _ (with_info (info_del ACCESS_PIT (pe_info e)) e)) in Hq as (e2 & tx & s5 & D5 & Hq & [Hnd Hs] & Hi2 & _);
        [|apply D|by apply (did_after _ _ _ _ _ _ D)|apply Hok|intros h Hh; unfold face_exists; rewrite (sc_faces _ _ C); by eapply nexthops_exist|by rewrite (sc_faces _ _ C)|done|done|simpl; by rewrite Hin].
      apply run_done in Hq. subst s5. exists tx. split; [|split].
      - split; [done|]. assert (Hname : i_name (ir_interest r) = pk_name k).
        { destruct (entry_ok _ _ _ I He) as [[_ _ N3 _] Hk]. apply find_in_Some in Hin as [Hin _]. destruct (N3 r Hin) as [Hkr _]. rewrite <- Hk. by rewrite <- Hkr. }
        intros x. rewrite Hs, Hname. apply base.exist_proper. intros h. unfold may_pass, leaves, local_face. by rewrite (sc_faces _ _ C).
      - unfold added. rewrite (dd_log _ _ _ _ _ _ D5), (dd_log _ _ _ _ _ _ D). done.
      - unfold info_of. rewrite (did_after _ _ _ _ _ _ D5). by rewrite Hi2. }
    destruct (entry_ok _ _ _ I He) as [_ Hk]. assert (Hname : i_name (pe_interest e) = pk_name k) by (by rewrite <- Hk).
    split; [|split; [|split; [|split; [|done]]]].
    - intros t f g e' r Hx Ht [= <-] [infc Hf] Hin. destruct (Hturn t f g Hx Ht) as (s1 & D & Hq). rewrite Hf, Hin in Hq. destruct (lookup_fib s e) as [fe|] eqn:El; [|done].
      destruct (Hmc t f g infc r fe s1 Hx D Hf Hin eq_refl Hq) as (tx & Hs & Ha & _). destruct (lookup_nexthops s e fe I El) as [Hn _]. rewrite Hname in Hn. by exists (fe_nexthops fe), tx.
    - intros t f g Hx Ht Hno. destruct (Hturn t f g Hx Ht) as (s1 & D & Hq). destruct (fw_faces s !! f) as [infc|] eqn:Hf; [destruct Hno; by exists infc|]. apply run_done in Hq. subst s1. exact (dd_log _ _ _ _ _ _ D).
    - intros t f g Hx Ht. destruct (Hturn t f g Hx Ht) as (s1 & D & Hq). destruct (fw_faces s !! f) as [infc|] eqn:Hf.
      + destruct (find_in f (pe_in e)) as [r|] eqn:Hin; [|done]. destruct (lookup_fib s e) as [fe|] eqn:El; [|done]. destruct (Hmc t f g infc r fe s1 Hx D Hf Hin eq_refl Hq) as (tx & _ & _ & Hi).
        unfold disarmed. rewrite Hi. apply del_item.
      + apply run_done in Hq. subst s1. unfold disarmed, info_of. rewrite (did_after _ _ _ _ _ _ D). apply del_item.
    - intros t f g Hx Ht. rewrite (Hget _ _ _ Hx) in H. destruct (Z.ltb_spec (now (fw_t s)) t); [|lia]. by apply run_done in H.
  Qed.

  Lemma cut_32 n : depth_cut n = take 32 n.
  Proof using. clear. unfold depth_cut, MAX_DEPTH. destruct (Nat.le_gt_cases (length n) 32); [rewrite Nat.min_l by done; by rewrite firstn_all, take_ge|rewrite Nat.min_r by lia; done]. Qed.
  Lemma note_run s k f rtt fi m s' me0 : Inv s -> meas_at (fw_t s) m = Some me0 -> run rand face_order None k (access_note f rtt (fi ++ [rtt]) m) s = Some (s', tt) ->
    exists samples v, measured m v s s' /\ noted (now (fw_t s)) f rtt fi samples (Some me0) (Some v).
  Proof using.
    intros I Hm0 H. unfold access_note in H. apply run_meas_extend in H as (me & me1 & s1 & Hm & E1 & E2 & E3 & M1 & H); [|done]. rewrite Hm0 in Hm. injection Hm as <-.
    rewrite read_run in H. assert (Hm1 : meas_at (fw_t s1) m = Some me1) by (by rewrite (mm_at _ _ _ _ M1), decide_True).
    change (match tr (fw_t s1) !! m with Some nte => e_meas nte | None => None end) with (meas_at (fw_t s1) m) in H. rewrite Hm1 in H. cbv zeta in H.
    apply (run_meas_info rand face_order _ _ _ _ _ _ _ me1) in H as (s2 & M2 & H); [|apply M1|done]. apply run_done in H. subst s2. eexists _, _. split.
    - split; [apply M2|eapply same_core_trans; [apply M1|apply M2]|intros k'; by rewrite (mm_pits _ _ _ _ M2), (mm_pits _ _ _ _ M1)|by rewrite (mm_log _ _ _ _ M2), (mm_log _ _ _ _ M1)|].
      intros q. rewrite (mm_at _ _ _ _ M2), (mm_at _ _ _ _ M1). by case_decide.
    - eexists. split; [reflexivity|]. split; [exact E3|]. cbv zeta. rewrite <- E1. cbn [me_info]. split; [apply item_set|]. split; [apply kept_set|]. split.
      + intros z l Hz%item_get <-. unfold ACCESS_MEAS. by rewrite Hz, N.eqb_refl.
      + intros Hno. destruct (info_get ACCESS_MEAS (me_info me1)) as [[|z l]|] eqn:Ei; [done| |done]. apply item_get in Ei. destruct (N.eqb_spec (Z.to_N z) f); [by destruct (Hno z l Ei)|done].
  Qed.

  (** Data.  The timeout is cancelled.  If the Data is the first to come back, from a face the Interest was sent to, that face is
      remembered as the one that answered last: the measurements are kept for at least 8 s.  Nothing else is, and nothing is sent. *)
  Theorem C65_data s k e d f s' : reachable s -> pit_at (fw_t s) k = Some e -> run rand face_order None k (access_before fit d f k) s = Some (s', tt) ->
    added s s' [] /\ disarmed s' k /\ rest_kept 1010 (info_of s k) (info_of s' k) /\
    (pe_in e = [] \/ (forall r, ~ out_record_of s k f r) -> forall n, meas_at (fw_t s') n = meas_at (fw_t s) n) /\
    (pe_in e <> [] -> forall r, out_record_of s k f r -> exists m samples, kept_under s (pk_name k) (d_name d) m /\
       noted (now (fw_t s)) f (now (fw_t s) - fr_renewed (or_rec r)) (fit s k f) samples (meas_at (fw_t s) m) (meas_at (fw_t s') m) /\
       (forall n, n <> m -> meas_at (fw_t s') n = meas_at (fw_t s) n \/ ((length n < length (d_name d))%nat /\ n `prefix_of` d_name d /\ meas_at (fw_t s) n = None)) /\
       (forall n, longest_defined (fun x => meas_at (fw_t s') x) n m -> same_choice s n m -> remembers s' n f samples)).
  Proof.
    intros Hr He H. pose proof (inv_of Hr) as I. apply run_with in H as (e0 & He0 & H). rewrite He in He0. injection He0 as <-.
    assert (Hinfo : info_of s k = pe_info e) by (unfold info_of; by rewrite He). destruct (entry_ok _ _ _ I He) as [[_ N2 _ _] _].
    apply bind_Some in H as (s1 & u & H0 & H). pose proof H0 as H1. apply upd_entry_Some in H0 as (e1 & He1 & Hs1). rewrite He in He1. injection He1 as <-.
    assert (D : did k e (with_info (info_del ACCESS_PIT (pe_info e)) e) [] s s1 /\ forall n, meas_at (fw_t s1) n = meas_at (fw_t s) n).
    { eapply upd_step in H1 as [e2 Hw]; [|done|done|intros e2 _; by apply same_records_ok|intros e2 _; by apply same_records_fine].
      assert (e2 = e) as -> by (pose proof (proj1 (wrote_at _ _ _ _ _ Hw)); congruence). split; [by apply wrote_did|apply Hw]. }
    clear Hs1 H1. destruct D as [D Hm1]. pose proof (dd_core _ _ _ _ _ _ D) as C.
    (* what follows touches measurements only *)
    assert (Hfr : forall s2, fw_log s2 = fw_log s1 -> (forall k, pit_at (fw_t s2) k = pit_at (fw_t s1) k) -> added s s2 [] /\ disarmed s2 k /\ rest_kept 1010 (info_of s k) (info_of s2 k)).
    { intros s2 L P. assert (E : info_of s2 k = info_del ACCESS_PIT (pe_info e)) by (unfold info_of; by rewrite P, (did_after _ _ _ _ _ _ D)).
      split; [unfold added; by rewrite L, (dd_log _ _ _ _ _ _ D)|]. unfold disarmed. rewrite E, Hinfo. split; [apply del_item|apply kept_del]. }
    assert (Hrec : forall r, out_record_of s k f r <-> find_out f (pe_out e) = Some r).
    { intros r. split; [intros (e' & He' & Hr' & <-); rewrite He in He'; injection He' as <-; by apply elem_find_out|]. intros [A B]%find_out_Some. by exists e. }
    destruct (pe_in e) as [|r0 ins] eqn:Ein.
    { injection H as ->. destruct (Hfr s') as (A1 & A2 & A3); [done|done|]. split; [done|]. split; [done|]. split; [done|]. split; [by intros _|by intros []]. }
    destruct (find_out f (pe_out e)) as [r|] eqn:Er.
    2: { injection H as ->. destruct (Hfr s') as (A1 & A2 & A3); [done|done|]. split; [done|]. split; [done|]. split; [done|]. split; [done|]. intros _ r [= ]%Hrec. }
    cbv zeta in H. set (rtt := (now (fw_t s) - fr_renewed (or_rec r))%Z) in *.
    assert (Hsame : forall s2 x, same_core s1 s2 -> Inv s2 -> same_strategy s2 k x = true <-> same_choice s (pk_name k) x).
    { intros s2 x C2 I2. rewrite same_strategy_spec by apply I2. apply choice_ext. intros y. by rewrite (sc_sc _ _ C2), (sc_sc _ _ C). }
    assert (Hdone : forall m v samples, kept_under s (pk_name k) (d_name d) m -> Inv s' -> same_core s1 s' -> fw_log s' = fw_log s1 -> (forall k, pit_at (fw_t s') k = pit_at (fw_t s1) k) ->
      meas_at (fw_t s') m = Some v -> noted (now (fw_t s)) f rtt (fit s k f) samples (meas_at (fw_t s) m) (Some v) ->
      (forall n, n <> m -> meas_at (fw_t s') n = meas_at (fw_t s) n \/ ((length n < length (d_name d))%nat /\ n `prefix_of` d_name d /\ meas_at (fw_t s) n = None)) ->
      added s s' [] /\ disarmed s' k /\ rest_kept 1010 (info_of s k) (info_of s' k) /\
      (r0 :: ins = [] \/ (forall r, ~ out_record_of s k f r) -> forall n, meas_at (fw_t s') n = meas_at (fw_t s) n) /\
      (r0 :: ins <> [] -> forall r, out_record_of s k f r -> exists m samples, kept_under s (pk_name k) (d_name d) m /\
        noted (now (fw_t s)) f (now (fw_t s) - fr_renewed (or_rec r)) (fit s k f) samples (meas_at (fw_t s) m) (meas_at (fw_t s') m) /\
        (forall n, n <> m -> meas_at (fw_t s') n = meas_at (fw_t s) n \/ ((length n < length (d_name d))%nat /\ n `prefix_of` d_name d /\ meas_at (fw_t s) n = None)) /\
        (forall n, longest_defined (fun x => meas_at (fw_t s') x) n m -> same_choice s n m -> remembers s' n f samples))).
    { intros m v samples Hk I' C' L P Hv Hno Hoth. destruct (Hfr s' L P) as (A1 & A2 & A3). split; [done|]. split; [done|]. split; [done|]. split.
      - intros [?|Hx]; [done|]. by destruct (Hx r); apply Hrec.
      - intros _ r' [= <-]%Hrec. exists m, samples. split; [done|]. rewrite Hv. split; [done|]. split; [done|]. intros n Hl Hsc. destruct Hno as (m' & [= <-] & _ & Hit & _).
        exists m, v, (Z.of_N f). split; [done|]. split; [done|]. split; [|split; [done|by rewrite N2Z.id]]. apply (choice_ext s s'); [|done]. intros x. by rewrite (sc_sc _ _ C'), (sc_sc _ _ C). }
    (* the Data's own name *)
    assert (Hself : forall s2 fi, Inv s2 -> same_core s1 s2 -> fw_log s2 = fw_log s1 -> (forall k, pit_at (fw_t s2) k = pit_at (fw_t s1) k) ->
      (forall n, meas_at (fw_t s2) n = meas_at (fw_t s) n \/ ((length n < length (d_name d))%nat /\ n `prefix_of` d_name d /\ meas_at (fw_t s) n = None /\ meas_at (fw_t s2) n = Some (fresh_meas n (now (fw_t s))))) ->
      run rand face_order None k (PMeasGet (d_name d) (PRead (fun s => if same_strategy s k (depth_cut (d_name d)) then access_note f rtt (fi ++ [rtt]) (depth_cut (d_name d)) else PFail))) s2 = Some (s', tt) ->
      same_choice s (pk_name k) (take 32 (d_name d)) /\ exists samples v, Inv s' /\ same_core s1 s' /\ fw_log s' = fw_log s1 /\ (forall k, pit_at (fw_t s') k = pit_at (fw_t s1) k) /\
        meas_at (fw_t s') (take 32 (d_name d)) = Some v /\ noted (now (fw_t s)) f rtt fi samples (meas_at (fw_t s) (take 32 (d_name d))) (Some v) /\
        (forall n, n <> take 32 (d_name d) -> meas_at (fw_t s') n = meas_at (fw_t s) n \/ ((length n < length (d_name d))%nat /\ n `prefix_of` d_name d /\ meas_at (fw_t s) n = None))).
    { intros s2 fi I2 C2 L2 P2 M2 Hq. apply run_meas_get in Hq as (s3 & M3 & Hq); [|done]. rewrite !cut_32 in *. rewrite read_run in Hq. pose proof (same_core_trans _ _ _ C2 (mm_core _ _ _ _ M3)) as C3.
      destruct (same_strategy s3 k (take 32 (d_name d))) eqn:Es; [|done]. apply Hsame in Es; [|done|apply M3]. split; [done|]. set (m := take 32 (d_name d)) in *.
      assert (Hn : now (fw_t s2) = now (fw_t s)) by (by rewrite (sc_now _ _ C2), (sc_now _ _ C)). rewrite Hn in M3.
      apply (note_run s3 _ _ _ _ _ _ (default (fresh_meas m (now (fw_t s))) (meas_at (fw_t s2) m))) in Hq as (samples & v & M4 & Hno); [|apply M3|by rewrite (mm_at _ _ _ _ M3), decide_True].
      assert (Hn3 : now (fw_t s3) = now (fw_t s)) by (by rewrite (sc_now _ _ (mm_core _ _ _ _ M3))). rewrite Hn3 in Hno. exists samples, v. split; [apply M4|]. split; [eapply same_core_trans; [exact C3|apply M4]|].
      split; [by rewrite (mm_log _ _ _ _ M4), (mm_log _ _ _ _ M3)|]. split; [intros k'; by rewrite (mm_pits _ _ _ _ M4), (mm_pits _ _ _ _ M3)|]. split; [by rewrite (mm_at _ _ _ _ M4), decide_True|]. split.
      - destruct (M2 m) as [E|(_ & _ & E1 & E2)]; [rewrite E in Hno|rewrite E2 in Hno; rewrite E1; exact Hno]. destruct (meas_at (fw_t s) m); exact Hno.
      - intros n Hnm. rewrite (mm_at _ _ _ _ M4), (mm_at _ _ _ _ M3), !decide_False by done. destruct (M2 n) as [E|(E0 & E1 & E2 & E3)]; [by left|by right]. }
    change (run rand face_order None k (access_learn d f k rtt (fit s k f ++ [rtt])) s1 = Some (s', tt)) in H. unfold access_learn in H. cbv zeta in H. destruct (d_name d) as [|c0 dn] eqn:Edn.
    - eapply (Hself s1) in H as (Hown & samples & v & I' & C' & L & P & Hv & Hno & Hoth); [|apply D|apply same_core_refl|done|done|intros n; left; apply Hm1].
      eapply (Hdone (take 32 []) v samples); try done. right. split; [|split; [exact Hown|done]]. intros p c E. by destruct p.
    - rewrite <- Edn in *. assert (Hnn : d_name d <> []) by (by rewrite Edn). clear Edn c0 dn. destruct (exists_last Hnn) as (p & c & Ep).
      assert (Epp : take (length (d_name d) - 1) (d_name d) = p) by (rewrite Ep, app_length; cbn [length]; rewrite Nat.add_sub; by apply take_app).
      rewrite Epp in H. apply run_meas_get in H as (s2 & M2 & H); [|apply D]. rewrite read_run in H. rewrite (cut_32 p) in H. rewrite cut_32 in M2.
      assert (Hn : now (fw_t s1) = now (fw_t s)) by apply C. rewrite Hn, Hm1 in M2.
      assert (Hlen : (length (take 32 p) < length (d_name d))%nat) by (rewrite take_length, Ep, app_length; cbn [length]; lia).
      assert (Hpre : take 32 p `prefix_of` d_name d) by (rewrite Ep; exists (drop 32 p ++ [c]); by rewrite app_assoc, take_drop).
      destruct (same_strategy s2 k (take 32 p)) eqn:Es.
      + apply Hsame in Es; [|apply M2|apply M2].
        apply (note_run s2 _ _ _ _ _ _ (default (fresh_meas (take 32 p) (now (fw_t s))) (meas_at (fw_t s) (take 32 p)))) in H as (samples & v & M4 & Hno); [|apply M2|by rewrite (mm_at _ _ _ _ M2), decide_True].
        assert (Hn2 : now (fw_t s2) = now (fw_t s)) by (by rewrite (sc_now _ _ (mm_core _ _ _ _ M2))). rewrite Hn2 in Hno.
        eapply (Hdone (take 32 p) v samples).
        * left. by exists p, c.
        * apply M4.
        * eapply same_core_trans; [apply M2|apply M4].
        * by rewrite (mm_log _ _ _ _ M4), (mm_log _ _ _ _ M2).
        * intros k'. by rewrite (mm_pits _ _ _ _ M4), (mm_pits _ _ _ _ M2).
        * by rewrite (mm_at _ _ _ _ M4), decide_True.
        * destruct (meas_at (fw_t s) (take 32 p)); exact Hno.
        * intros n Hnm. left. by rewrite (mm_at _ _ _ _ M4), (mm_at _ _ _ _ M2), !decide_False.
      + eapply (Hself s2) in H as (Hown & samples & v & I' & C' & L & P & Hv & Hno & Hoth); [|apply M2|apply M2|apply M2|apply M2|].
        * eapply (Hdone (take 32 (d_name d)) v samples); try done. right. split; [|split; [exact Hown|done]].
          intros p' c' E Hx. rewrite Ep in E. apply app_inj_tail in E as [<- _]. apply (Hsame s2) in Hx; [congruence|apply M2|apply M2].
        * intros n. rewrite (mm_at _ _ _ _ M2). case_decide as En; [|left; apply Hm1]. subst n. destruct (meas_at (fw_t s) (take 32 p)) eqn:Eo; [by left|]. right. done.
  Qed.
  (** An Interest that loops is answered with a Nack of reason Duplicate, over a point-to-point link only *)
  Theorem C65_loop s f i s' p inst : reachable s -> ev_ok s (EvInterest f i) -> step s (EvInterest f i) = Some s' -> strategies inst = access ->
    i_hop i <> Some 0%N -> (localhost (i_name i) -> local_face s f) ->
    Dnl_Model.dnl_has make_entry (fw_dnl s) (i_name i) (i_nonce i) = true \/ looping s f i ->
    governs (fun m => sc_at (fw_t s) m) (i_name i) p inst ->
    (p2p_face s f -> exists j, one_hop i j /\ i_nonce j = i_nonce i /\ i_token j = i_token i /\ added s s' [Tx_nack f j 100; Rx_interest f i]) /\
    (~ p2p_face s f -> added s s' [Rx_interest f i]).
  Proof.
    intros R Ho H Hst Hh Hs Hl Hg. destruct (loop_exact _ _ _ _ _ _ _ s f i s' p inst (inv_of R) Ho H Hh Hs Hl Hg) as [H1 H2]. rewrite Hst in *. split; [intros Hp; by apply H1|intros Hp; apply H2; by left].
  Qed.
End props.

(** ** The contracts that the forwarder's theorems ask for *)
Lemma obeys_am (R : fw -> Prop) (K : fw -> act -> Prop) s F infc src i f ex l q : (forall nh, skips F infc i f ex nh = false -> K s (AInterest src None false (nh_face nh))) ->
  (forall n, obeys R K s (q n)) -> forall n, obeys R K s (access_multicast F infc src i f ex l n q).
Proof.
  intros HK Hq. induction l as [|nh l IH]; intros n; simpl; [apply Hq|]. destruct (skips F infc i f ex nh) eqn:E; [apply IH|]. constructor; [by apply HK|]. intros b. apply IH.
Qed.
Lemma violate_scope F f infc i g outfc : F !! f = Some infc -> F !! g = Some outfc -> would_violate_scope infc i outfc = false -> scope_ok F f (i_name i) g.
Proof.
  intros Ef Eg E. unfold would_violate_scope in E.
  destruct (fc_local outfc) eqn:El; [split; [intros _; by exists outfc|intros _; right; by exists outfc]|].
  destruct (is_localhost (i_name i)) eqn:E1; [done|]. split; [intros H%is_localhost_spec; congruence|].
  intros H%is_localhop_spec. rewrite H in E. left. exists infc. split; [done|]. by destruct (fc_local infc).
Qed.
Lemma skips_scope F f infc i ex nh : F !! f = Some infc -> skips F infc i f ex nh = false -> scope_ok F f (i_name i) (nh_face nh).
Proof. intros Ef [_ E]%orb_false_iff. destruct (F !! nh_face nh) as [outfc|] eqn:Eg; [|done]. by eapply violate_scope. Qed.
Lemma last_scope F f infc i g l : F !! f = Some infc -> last_usable F infc i f g l = true -> scope_ok F f (i_name i) g.
Proof.
  intros Ef [_ E]%andb_prop. destruct (F !! g) as [outfc|] eqn:Eg; [|done]. apply andb_prop in E as [_ E%negb_true_iff]. by eapply violate_scope.
Qed.
Lemma obeys_access rto_of (R : fw -> Prop) (K : fw -> act -> Prop) i f k s :
  (forall s infc nh, R s -> fw_faces s !! f = Some infc -> skips (fw_faces s) infc i f 0 nh = false -> K s (AInterest Trigger None false (nh_face nh))) ->
  (forall s infc g l, R s -> fw_faces s !! f = Some infc -> last_usable (fw_faces s) infc i f g l = true -> K s (AInterest Trigger None false g)) ->
  (forall s, K s (ATimer 0)) -> obeys R K s (access_interest rto_of i f k).
Proof.
  intros H1 H2 H3. apply obeys_with. intros s' e Hs He. destruct (decide_fixed _ _ _) as [[| |]|]; [| |constructor|constructor]; (destruct (lookup_fib s' e) as [fe|]; [|constructor]); (destruct (fw_faces s' !! f) as [infc|] eqn:Ef; [|constructor]); cbv zeta.
  - assert (Hm : obeys R K s' (access_multicast (fw_faces s') infc Trigger i f 0 (fe_nexthops fe) 0 (fun n => if (n =? 0)%nat then PTimer 0 PDone else PDone))).
    { apply obeys_am; [intros nh; by apply H1|]. intros n. destruct (n =? 0)%nat; [constructor; [apply H3|]|]; constructor. }
    destruct (find_prefix_meas s' k) as [[g samples]|]; [|done]. destruct (last_usable _ _ _ _ _ _) eqn:El; [|done]. constructor; [by eapply H2|]. intros []; [|done]. constructor. constructor.
  - apply obeys_am; [intros nh; by apply H1|]. constructor.
Qed.
Lemma obeys_before fit (R : fw -> Prop) (K : fw -> act -> Prop) d f k s : obeys R K s (access_before fit d f k).
Proof.
  apply obeys_with. intros s' e _ _. constructor. destruct (pe_in e); [constructor|]. destruct (find_out _ _) as [r|]; [|constructor]. cbv zeta. set (rtt := (_ - _)%Z). set (fi := _ ++ _).
  assert (Hn : forall m s, obeys R K s (access_note f rtt fi m)).
  { intros m s0. constructor. constructor. intros s1 _. destruct (match tr (fw_t s1) !! m with Some nte => e_meas nte | None => None end); [|constructor]. constructor. constructor. }
  assert (Hs : forall s, obeys R K s (PMeasGet (d_name d) (PRead (fun s => if same_strategy s k (depth_cut (d_name d)) then access_note f rtt fi (depth_cut (d_name d)) else PFail)))).
  { intros s0. constructor. constructor. intros s1 _. destruct (same_strategy _ _ _); [apply Hn|constructor]. }
  unfold access_learn. cbv zeta. destruct (d_name d) eqn:E; [apply Hs|]. constructor. constructor. intros s1 _. destruct (same_strategy _ _ _); [apply Hn|apply Hs].
Qed.
Lemma obeys_timeout (R : fw -> Prop) (K : fw -> act -> Prop) k s :
  (forall s e infc f g r nh, R s -> pit_get k (fw_t s) = Some e -> fw_faces s !! f = Some infc -> find_in f (pe_in e) = Some r -> skips (fw_faces s) infc (ir_interest r) f g nh = false ->
     K s (AInterest (OfInRecord f) None false (nh_face nh))) -> obeys R K s (access_timeout k).
Proof.
  intros H. constructor. intros s1 Hs1. destruct (pit_get k (fw_t s1)) as [e|] eqn:He; [|constructor]. destruct (info_get _ _) as [[|t [|f [|g []]]]|]; try constructor. destruct (_ <? _)%Z; [constructor|]. constructor.
  destruct (fw_faces s1 !! Z.to_N f) as [infc|] eqn:Ef; [|constructor]. destruct (find_in _ _) as [r|] eqn:Er; [|constructor]. destruct (lookup_fib s1 e) as [fe|]; [|constructor].
  apply obeys_am; [intros nh; by eapply H|]. constructor.
Qed.
(** the access strategy respects scope, also when the timer is due ... *)
Theorem C24_access rto_of fit : scoped (access_strategy rto_of fit).
Proof.
  split.
  - intros F i f k s HF. apply obeys_access; [| |done].
    + intros s1 infc nh [<- _] Hf H. by eapply skips_scope.
    + intros s1 infc g l [<- _] Hf H. by eapply last_scope.
  - intros F d f k s HF. apply obeys_before.
  - done.
  - intros F i r f k s HF. constructor.
  - intros F nh k s HF. constructor.
  - intros F arg k s HF. apply obeys_timeout. intros s1 e infc f g r nh [HF1 Hk] [He _]%get_key Hf [Hr Hfr]%find_in_Some H.
    assert (Hin : in_record_of s1 k f r) by (by exists e). exists f, r. split; [done|]. rewrite <- HF1. apply skips_scope in H; [|done]. specialize (Hk k f r Hin). assert (i_name (ir_interest r) = pk_name k) as <- by (by rewrite <- Hk). done.
Qed.
(** ... leaves returning Data to the forwarder ... *)
Theorem C27_access rto_of fit : default_data (access_strategy rto_of fit).
Proof. split; [done|]. intros d f k s. apply obeys_before. Qed.
(** ... and does not touch the expiry timers, but to let entries expire at once *)
Theorem C29_access rto_of fit : patient True (access_strategy rto_of fit).
Proof.
  split; [intros i f k s; by apply obeys_access|intros d f k s; apply obeys_before|done|intros i r f k s; constructor|intros nh k s; constructor|intros arg k s; by apply obeys_timeout].
Qed.

(** ** Cases that meet the hypotheses
    The nexthops of /1 are 257, of cost 20, and 258, of cost 10.  The RTO is 20 ms *)
Definition ex_access : strategy := access_strategy (fun _ => 20000000%Z) (fun _ _ _ => []).
Definition ask_for (n : name) (nonce : N) : event := EvInterest 256 (ex_interest n nonce).
Definition acc_n (x : N) : name := [gc 1; gc 2; gc x].
Definition acc_key (x : N) : pit_key := key_of (ex_interest (acc_n x) 0).
(** nonces and faces of the Interests sent *)
Definition acc_out (s : fw) : list (N * N) := rev (omap (fun x => match x with Tx_interest g j => Some (i_nonce j, g) | _ => None end) (fw_log s)).
Definition acc_learnt : list event := st_evs ++ [ask_for (acc_n 3) 1; ms 5; EvData 257 (ex_data (acc_n 3))].
Example C65_new_ex :
  (* nothing is known: to all *)
  st_holds ex_access (st_evs ++ [ask_for (acc_n 3) 1]) (fun s => bool_decide (acc_out s = [(1, 258); (1, 257)]%N)) = true /\
  (* 257 has answered: to it *)
  st_holds ex_access (acc_learnt ++ [ask_for (acc_n 4) 2]) (fun s => bool_decide (acc_out s = [(1, 258); (1, 257); (2, 257)]%N)) = true /\
  (* the measurements are gone *)
  st_holds ex_access (acc_learnt ++ [ms 8001; ask_for (acc_n 4) 2]) (fun s => bool_decide (acc_out s = [(1, 258); (1, 257); (2, 258); (2, 257)]%N)) = true /\
  (* no nexthop *)
  st_holds ex_access (ex_faces ++ [ask_for (acc_n 3) 1]) (fun s => bool_decide (acc_out s = [])) = true /\
  st_holds ex_access st_evs (fun s => reachesb s 256 (ex_interest (acc_n 3) 1)) = true.
Proof. by vm_compute. Qed.
Example C65_timeout_ex :
  let evs := acc_learnt ++ [ask_for (acc_n 4) 2] in
  (* not due *)
  st_holds ex_access (evs ++ [ms 19; EvAsync [] [] (acc_key 4)]) (fun s => bool_decide (acc_out s = [(1, 258); (1, 257); (2, 257)]%N)) = true /\
  (* due: to the other *)
  st_holds ex_access (evs ++ [ms 20; EvAsync [] [] (acc_key 4)]) (fun s => bool_decide (acc_out s = [(1, 258); (1, 257); (2, 257); (2, 258)]%N)) = true /\
  (* once *)
  st_holds ex_access (evs ++ [ms 20; EvAsync [] [] (acc_key 4); ms 20; EvAsync [] [] (acc_key 4)]) (fun s => bool_decide (acc_out s = [(1, 258); (1, 257); (2, 257); (2, 258)]%N)) = true /\
  (* answered in time *)
  st_holds ex_access (evs ++ [EvData 257 (ex_data (acc_n 4)); ms 20; EvAsync [] [] (acc_key 4)]) (fun s => bool_decide (acc_out s = [(1, 258); (1, 257); (2, 257)]%N)) = true.
Proof. by vm_compute. Qed.
Example C65_retx_ex :
  st_holds ex_access (st_evs ++ [ask_for (acc_n 3) 1; ms 99; ask_for (acc_n 3) 2]) (fun s => bool_decide (acc_out s = [(1, 258); (1, 257)]%N)) = true /\
  st_holds ex_access (st_evs ++ [ask_for (acc_n 3) 1; ms 100; ask_for (acc_n 3) 2]) (fun s => bool_decide (acc_out s = [(1, 258); (1, 257); (2, 258); (2, 257)]%N)) = true /\
  st_holds ex_access (st_evs ++ [ask_for (acc_n 3) 1; ms 99]) (fun s => reachesb s 256 (ex_interest (acc_n 3) 2)) = true.
Proof. by vm_compute. Qed.
Example C65_data_ex :
  st_holds ex_access acc_learnt (fun s => match meas_at (fw_t s) [gc 1; gc 2] with Some m => bool_decide (me_info m = [(1011%N, [257; 5000000]%Z)] /\ (me_expiry m = now (fw_t s) + 8000000000)%Z) | None => false end) = true.
Proof. by vm_compute. Qed.

(** ** What is false
    The strategy does not expect Data under another strategy choice than the Interest: /1/2 has its own, the Interest is for
    /1, the Data is /1/2/3.  Neither measurements entry may be had, and an assertion fails *)
Definition acc_wide : interest := Interest [gc 1] true false 1 4000 None [] None None false.
Theorem C65_defined_refuted : exists s, st_reachable ex_access s /\ ev_ok s (EvData 257 (ex_data (acc_n 3))) /\
  fw_step isort ex_create name_eqb ex_hash ex_rand ex_order (fun _ => ex_access) s (EvData 257 (ex_data (acc_n 3))) = None.
Proof.
  set (evs := st_evs ++ [EvStrategySet [gc 1; gc 2] [gc 9]; EvInterest 256 acc_wide]).
  assert (H : st_holds ex_access evs (fun s => ev_okb s (EvData 257 (ex_data (acc_n 3))) && match fw_step isort ex_create name_eqb ex_hash ex_rand ex_order (fun _ => ex_access) s (EvData 257 (ex_data (acc_n 3))) with None => true | Some _ => false end) = true) by (by vm_compute).
  unfold st_holds in H. destruct (st_after ex_access evs) as [s|] eqn:E; [|done]. apply andb_prop in H as [H1 H2]. exists s. split; [by eapply ex_reach|]. split; [by apply ev_okb_ok|]. by destruct (fw_step _ _ _ _ _ _ _ _ _).
Qed.
Print Assumptions C65_new.
Print Assumptions C65_retx.
Print Assumptions C65_timeout.
Print Assumptions C65_data.
Print Assumptions C24_access.
Print Assumptions C27_access.
Print Assumptions C29_access.
Print Assumptions C65_defined_refuted.
Print Assumptions C65_loop.
