(** C66: the self-learning strategy. *)
From stdpp Require Import gmap.
From Verif Require Import Lib Name_Model Name_Proof Packet_Model Nt_Model Nt_Spec Tree_Model Tree_Proof Tab_Model Tab_Spec Tab_At Tab_Fib Tab_Pit Tab_Pit2 Tab_Meas Tab_Sc Tab_Run Tab_Main Fw_Model Fw_Spec Fw_Inv Fw_Case Fw_Case2 Fw_Case3 Fw_Hist Fw_Acc Fw_Step Fw_Out Fw_Main Fw_Data Fw_Loop Fw_Ex FwFace_Props St_Model St_Retx St_Spec St_Dec St_Run St_At St_Best St_Multi St_Nack StRetx_Props StBest_Props StFw_Props Fib_Props Acc_Model Acc_Spec Acc_Run Acc_Props Sl_Model Sl_Spec Sl_Run.
From Verif Require Cs_Model Cs_Spec Cs_Main Dnl_Model.

Lemma bc_spec s infc i f g : fw_faces s !! f = Some infc -> bc_skips (fw_faces s) infc i f g = false <-> nonlocal_face s g /\ may_go s f (i_name i) g.
Proof.
  intros Hf. pose proof (eligible_may_go s f i (NextHop g 0) (new_pit_entry i) ltac:(by exists infc)) as He. simpl in He. rewrite <- He. unfold next_hop_eligible, bc_skips, nonlocal_face. simpl. rewrite Hf. destruct (fw_faces s !! g) as [fc|].
  2: { split; [done|]. by intros [(? & ? & _) _]. }
  destruct (fc_local fc) eqn:El.
  - rewrite orb_true_r. split; [done|]. intros [(fc' & [= <-] & ?) _]. congruence.
  - rewrite orb_false_r. destruct ((g =? f)%N && negb (is_adhoc fc)); simpl; [by split; [|intros []]|]. destruct (would_violate_scope infc i fc); simpl; [by split; [|intros []]|]. split; [|done]. intros _. split; [by exists fc|done].
Qed.
Lemma faces_elem F g : g ∈ faces_desc F <-> is_Some (F !! g).
Proof.
  unfold faces_desc. rewrite elem_of_list_In, <- in_rev, <- elem_of_list_In, merge_sort_Permutation. change (map fst) with (fmap (M := list) (@fst N face)). rewrite elem_of_list_fmap. split.
  - intros ([g' fc] & -> & H%elem_of_map_to_list). by exists fc.
  - intros [fc H]. exists (g, fc). split; [done|by apply elem_of_map_to_list].
Qed.
Lemma faces_nodup F : NoDup (faces_desc F).
Proof. unfold faces_desc. rewrite <- (Permutation_rev (merge_sort N.le _)), merge_sort_Permutation. apply NoDup_fst_map_to_list. Qed.

Lemma turn_ext s s2 f k g r : (forall g r, in_record_of s2 k g r <-> in_record_of s k g r) -> fw_faces s2 = fw_faces s -> now (fw_t s2) = now (fw_t s) -> in_turn s2 f k g r <-> in_turn s f k g r.
Proof. intros H1 H2 H3. unfold in_turn, live, adhoc_face. by rewrite H1, H2, H3. Qed.
Lemma answers_ext s s2 f k d tx : (forall g r, in_record_of s2 k g r <-> in_record_of s k g r) -> fw_faces s2 = fw_faces s -> now (fw_t s2) = now (fw_t s) -> answers_all s2 f k d tx -> answers_all s f k d tx.
Proof.
  intros H1 H2 H3 [A B]. assert (Hlf : forall g, local_face s2 g <-> local_face s g) by (intros g; unfold local_face; by rewrite H2).
  split; [done|]. intros x. rewrite B. split; intros (g & r & Ht & Hl & ->); exists g, r; (split; [by apply (turn_ext s s2)|]); (split; [|done]); intros Hx%Hl; by apply Hlf.
Qed.
Lemma leaves_ext s s2 s3 s4 f k : (forall g r, in_record_of s2 k g r <-> in_record_of s k g r) -> fw_faces s2 = fw_faces s -> now (fw_t s2) = now (fw_t s) ->
  (forall g r, in_record_of s4 k g r <-> in_record_of s3 k g r) -> answered_leaves s2 s3 f k -> answered_leaves s s4 f k.
Proof. intros H1 H2 H3 H4 H g r. rewrite H4, (H g r), H1. by rewrite (turn_ext s s2) by done. Qed.
Lemma need_spec s k e : Inv s -> pit_at (fw_t s) k = Some e -> need_prefix_ann s e = true <-> wants_ann s k.
Proof.
  intros I He. unfold need_prefix_ann, wants_ann, live. cbv zeta. rewrite andb_true_iff, !existsb_exists.
  assert (Hl : forall r, In r (List.filter (fun r => (now (fw_t s) <? fr_expiry (ir_rec r))%Z) (pe_in e)) <-> in_record_of s k (fr_face (ir_rec r)) r /\ (now (fw_t s) < fr_expiry (ir_rec r))%Z).
  { intros r. rewrite filter_In, <- elem_of_list_In, Z.ltb_lt. assert (r ∈ pe_in e <-> in_record_of s k (fr_face (ir_rec r)) r) as ->; [|done]. unfold in_record_of. split; [intros; by exists e|]. intros (e' & He' & ? & _). congruence. }
  assert (Hg : forall g r, in_record_of s k g r -> fr_face (ir_rec r) = g) by (by intros g r (? & _ & _ & ?)).
  split; intros [A B]; (split; [clear B; destruct A as (x & A)|clear A; destruct B as (x & A)]).
  - destruct A as [A1%Hl A2]. exists (fr_face (ir_rec x)), x. split; [done|]. apply item_get. change 1040%N with SL_IN. destruct (info_get SL_IN _) as [[|b []]|]; try done. apply Z.eqb_eq in A2 as ->. done.
  - destruct A as [A1%Hl A2]. exists (fr_face (ir_rec x)), x. split; [done|]. unfold nonlocal_face. destruct (fw_faces s !! _) as [fc|]; [|done]. exists fc. split; [done|]. by destruct (fc_local fc).
  - destruct A as (r & [A1 A2] & A3). exists r. rewrite Hl, (Hg x r A1). split; [done|]. apply item_get in A3. change 1040%N with SL_IN in A3. by rewrite A3.
  - destruct A as (r & [A1 A2] & fc & A3 & A4). exists r. rewrite Hl, (Hg x r A1). split; [done|]. by rewrite A3, A4.
Qed.

Lemma packet_spec s n x : packet s n x -> packet_at s n = Some x.
Proof.
  intros (l1 & l2 & E & ->). unfold packet_at. destruct (Z.ltb_spec (Z.of_nat (length l2)) 0); [lia|]. rewrite E, Nat2Z.id, rev_app_distr. simpl. rewrite <- app_assoc. rewrite nth_error_app2 by (by rewrite rev_length). by rewrite rev_length, Nat.sub_diag.
Qed.
Lemma nack_each_quiet reason l : no_request (nack_each reason l PDone).
Proof. by induction l. Qed.

Section props.
  Variable sort_nexthops : list nexthop -> list nexthop.
  Variable create_strategy : name -> create_result.
  Variable same_type : name -> name -> bool.
  Variable make_entry : name -> N -> Dnl_Model.fingerprint.
  Variable rand : nat -> nat.
  Variable face_order : list N -> list N.
  Variable strategies : name -> strategy.
  Notation step := (fw_step sort_nexthops create_strategy same_type make_entry rand face_order strategies).
  Notation reachable := (fw_reachable sort_nexthops create_strategy same_type make_entry rand face_order strategies).
  Hypothesis W : world_ok sort_nexthops same_type face_order.
  Notation inv_of R := (proj1 (reachable_inv _ _ _ _ _ _ _ W _ R)).
  (** the prefix announcement attached to a packet; attaching one; the order in which faces are told *)
  Variable get_ann : N -> option Z.
  Variable put_ann : Z -> N -> N.
  Variable order : list N -> list N.
  Notation learner := (self_learning get_ann put_ann order).

  (** A discovery Interest for which there is a route goes, as a non-discovery Interest, to all the nexthops it may go to; one for which
      there is none goes to all the faces it may go to that are not local.  A non-discovery Interest goes to all the nexthops it may go
      to; if there is no route it is turned down.  What was received and what was sent is noted on the records *)
  Theorem C66_interest s f i s' inst : reachable s -> reaches make_entry s f i inst -> strategies inst = learner -> step s (EvInterest f i) = Some s' ->
    let k := key_of i in
    exists hint l j tx, hint_for s i hint /\ nexthops_for s hint (i_name i) l /\ one_hop i j /\ i_nonce j = i_nonce i /\ i_token j = None /\
      added s s' (tx ++ [Rx_interest f i]) /\ posted s s' [] /\ info_of s' k = info_of s k /\
      let routed g := (exists h, h ∈ l /\ nh_face h = g) /\ may_go s f (i_name i) g in
      (i_nondisc i = false -> l = [] -> i_nondisc j = false /\ sent_where s j (fun g => nonlocal_face s g /\ may_go s f (i_name i) g) tx /\
         marked_in s' k f false /\ forall g, Tx_interest g j ∈ tx -> marked_out s' k g false) /\
      (l <> [] -> i_nondisc j = true /\ sent_where s j routed tx /\
         marked_in s' k f (i_nondisc i) /\ forall g, Tx_interest g j ∈ tx -> marked_out s' k g true) /\
      (i_nondisc i = true -> l = [] -> expires s' k (now (fw_t s)) /\
         (p2p_face s f -> (exists j', one_hop i j' /\ i_nonce j' = i_nonce i /\ i_token j' = i_token i /\ tx = [Tx_nack f j' 150]) /\ forall r, ~ in_record_of s' k f r) /\
         (~ p2p_face s f -> tx = [] /\ marked_in s' k f true)) /\
      (* the other records stay as they are *)
      (forall g r, g <> f -> in_record_of s' k g r <-> in_record_of s k g r) /\
      (forall g r, Tx_interest g j ∉ tx -> out_record_of s' k g r <-> out_record_of s k g r).
  Proof.
    intros Hr (Ho & Ht & Hnh & Hc & p & Hg) Hst H k. destruct (at_strategy _ _ _ _ _ _ _ W s f i s' p inst Hr Ho H Ht Hnh Hc Hg) as (i3 & e & s3 & R & Hrun).
    pose proof (inv_of Hr) as I. pose proof (rd_inv _ _ _ _ _ _ R) as I3. pose proof (rd_at _ _ _ _ _ _ R) as Hat. fold k in Hat, Hrun.
    rewrite Hst in Hrun. cbn [self_learning st_interest] in Hrun. assert (Hpost : fw_priv s' = fw_priv s3).
    { eapply run_no_request; [|exact Hrun].
      unfold sl_interest, with_entry. cbn [no_request]. intros s0. destruct (pit_get k (fw_t s0)) as [e0|]; [|done]. destruct (lookup_fib s0 e0) as [fe|]; [|done].
      destruct (find_in f _); [|done]. destruct (fw_faces s0 !! f); [|done]. cbn [no_request]. destruct (i_nondisc i3), (fe_nexthops fe) as [|h0 l0]; [done| | |]; [rewrite multicast_spread|rewrite broadcast_spread|rewrite multicast_spread]; apply spread_quiet. }
    unfold sl_interest in Hrun. apply run_with in Hrun as (e0 & He0 & Hrun). rewrite Hat in He0. injection He0 as <-.
    destruct (lookup_fib s3 e) as [fe|] eqn:El; [|done]. destruct (rd_in _ _ _ _ _ _ R) as (r & Hfr & Hri). rewrite Hfr in Hrun. destruct (fw_faces s3 !! f) as [infc|] eqn:Ef; [|done].
    destruct (lookup_nexthops s3 e fe I3 El) as [Hn3 Hok]. pose proof Hn3 as Hn. apply (nexthops_ext s) in Hn; [|apply R]. rewrite (rd_name _ _ _ _ _ _ R) in Hn.
    set (si := info_set SL_IN _ _) in Hrun. apply (run_in_info _ _ _ _ _ _ _ _ _ e) in Hrun as (s4 & D4 & Hrun); [|done|done].
    pose proof (dd_core _ _ _ _ _ _ D4) as C4. pose proof (did_after _ _ _ _ _ _ D4) as Hat4.
    assert (Hnd : i_nondisc i3 = i_nondisc i) by apply R. rewrite Hnd in Hrun.
    assert (Hl3 : (0 <= i_lifetime i3)%Z) by (rewrite (rd_life _ _ _ _ _ _ R); apply Ho).
    assert (Hgo : forall g, may_go s3 f (i_name i3) g <-> may_go s f (i_name i) g) by (intros g; unfold may_go, face_exists, adhoc_face; by rewrite (rd_faces _ _ _ _ _ _ R), (ready_name _ _ _ _ _ _ R)).
    assert (Hnl : forall g, nonlocal_face s3 g <-> nonlocal_face s g) by (intros g; unfold nonlocal_face; by rewrite (rd_faces _ _ _ _ _ _ R)).
    assert (Hlv : forall j g, leaves s4 j g <-> leaves s j g) by (intros j g; unfold leaves, local_face; by rewrite (sc_faces _ _ C4), (rd_faces _ _ _ _ _ _ R)).
    assert (Hff : forall r', find_in f (pe_in (with_in_info f si e)) = Some r' -> fr_info (ir_rec r') = si).
    { intros r'. simpl. rewrite set_in_find, Hfr. simpl. intros [= <-]. unfold set_in_info. apply find_in_Some in Hfr as [_ ->]. by rewrite N.eqb_refl. }
    assert (Hfs : is_Some (find_in f (pe_in (with_in_info f si e)))) by (simpl; rewrite set_in_find, Hfr; by eexists).
    assert (Hfo : forall g, g <> f -> find_in g (pe_in (with_in_info f si e)) = find_in g (pe_in e)).
    { intros g Hgf. simpl. rewrite set_in_find. destruct (find_in g (pe_in e)) as [r'|] eqn:E; [|done]. simpl. unfold set_in_info. apply find_in_Some in E as [_ ->]. destruct (N.eqb_spec g f); [done|done]. }
    assert (Hsi : item 1040 (flag (i_nondisc i)) si) by (unfold si; rewrite Hnd; apply item_set).
    (* what is common to the cases in which nothing is turned down *)
    assert (Hcom : forall nd skip mark l, i_nondisc (prepare None mark i3) = nd -> NoDup l -> run rand face_order (Some i3) k (spread skip mark nd k l) s4 = Some (s', tt) -> forall P, (forall g, g ∈ l /\ skip g = false <-> P g) ->
      exists tx, let j := prepare None mark i3 in added s s' (tx ++ [Rx_interest f i]) /\ info_of s' k = info_of s k /\ sent_where s j P tx /\ marked_in s' k f (i_nondisc i) /\ (forall g, Tx_interest g j ∈ tx -> marked_out s' k g nd) /\
        (forall g r, g <> f -> in_record_of s' k g r <-> in_record_of s k g r) /\ (forall g r, Tx_interest g j ∉ tx -> out_record_of s' k g r <-> out_record_of s k g r)).
    { intros nd skip mark l _ Hnl' Hq P HP. apply (spread_run rand face_order _ _ _ _ _ _ _ _ (with_in_info f si e)) in Hq as (e1 & tx & D & Hnt & Hx & K1 & K2 & K3 & K4 & K5); [|apply D4|done|done|done].
      pose proof (did_trans _ _ _ _ _ _ _ _ _ D4 D) as D'. pose proof (did_after _ _ _ _ _ _ D') as Hat'. pose proof (dd_inv _ _ _ _ _ _ D') as I'. set (j := prepare None mark i3) in *.
      assert (HP' : forall g, (g ∈ l /\ skip g = false /\ leaves s4 j g) <-> P g /\ leaves s j g) by (intros g; rewrite <- HP, Hlv; tauto).
      exists tx. cbv zeta. split; [unfold added; rewrite (dd_log _ _ _ _ _ _ D'), (rd_log _ _ _ _ _ _ R), app_nil_r, <- app_assoc; done|].
      split; [unfold info_of at 1; rewrite Hat', K2; simpl; apply R|]. split; [split; [done|intros x; rewrite Hx; split]|split; [|split; [|split]]].
      - intros (g & [A B]%HP' & ->). by exists g.
      - intros (g & A & B & ->). exists g. split; [by apply HP'|done].
      - destruct Hfs as [r' Hr']. exists r'. split; [apply (in_rec s' k e1 f r' I' Hat'); by rewrite K1|]. by rewrite (Hff _ Hr').
      - intros g (g' & Hg' & [= <-])%Hx. destruct (K4 g Hg') as (r' & Hr' & Hi'). exists r'. split; [by apply (out_rec s' k e1)|]. by apply item_get.
      - intros g r' Hgf. rewrite (in_rec s' k e1 g r' I' Hat'), K1, Hfo by done. by apply R.
      - intros g r' Hni. rewrite (out_rec s' k e1 g r' I' Hat'), K5; [|intros Hg'; apply Hni, Hx; by exists g]. simpl. rewrite (rd_out _ _ _ _ _ _ R). unfold out_record_of, outs_of. fold k. destruct (pit_at (fw_t s) k) as [e0|] eqn:E0.
        + rewrite <- (out_rec s k e0 g r' I E0). unfold out_record_of. by rewrite E0.
        + split; [done|]. by intros (? & ? & _). }
    assert (Hposted : posted s s' []) by (unfold posted; rewrite Hpost; apply R).
    assert (Hmc : forall mark, i_nondisc (prepare None mark i3) = true -> fe_nexthops fe <> [] -> run rand face_order (Some i3) k (sl_multicast (fw_faces s3) mark i3 f e k (fe_nexthops fe)) s4 = Some (s', tt) ->
      exists hint l j tx, hint_for s i hint /\ nexthops_for s hint (i_name i) l /\ one_hop i j /\ i_nonce j = i_nonce i /\ i_token j = None /\ added s s' (tx ++ [Rx_interest f i]) /\ posted s s' [] /\ info_of s' k = info_of s k /\
        l <> [] /\ i_nondisc j = true /\ sent_where s j (fun g => (exists h, h ∈ l /\ nh_face h = g) /\ may_go s f (i_name i) g) tx /\
        marked_in s' k f (i_nondisc i) /\ (forall g, Tx_interest g j ∈ tx -> marked_out s' k g true) /\
        (forall g r, g <> f -> in_record_of s' k g r <-> in_record_of s k g r) /\ (forall g r, Tx_interest g j ∉ tx -> out_record_of s' k g r <-> out_record_of s k g r)).
    { intros mark Hj Hne Hq. rewrite multicast_spread in Hq. destruct (Hcom true _ mark _ Hj (proj2 Hok) Hq (fun g => (exists h, h ∈ fe_nexthops fe /\ nh_face h = g) /\ may_go s f (i_name i) g)) as (tx & A & B & C & D & E & F & G).
      - intros g. rewrite elem_of_list_fmap, negb_false_iff, (eligible_may_go s3 f i3 (NextHop g 0) e) by (by exists infc). simpl. rewrite Hgo. split; intros [(h & A & B) C]; (split; [by exists h|done]).
      - exists (i_hint (pe_interest e)), (fe_nexthops fe), (prepare None mark i3), tx. split; [apply R|]. split; [done|]. assert (Hj' : one_hop i (prepare None mark i3) /\ i_nonce (prepare None mark i3) = i_nonce i /\ i_token (prepare None mark i3) = None).
        { pose proof (rd_hop _ _ _ _ _ _ R) as Hh. pose proof (rd_nonce _ _ _ _ _ _ R) as Hno. destruct mark; done. }
        destruct Hj' as (J1 & J2 & J3). repeat (split; [done|]). done. }
    destruct (i_nondisc i) eqn:Ei.
    - destruct (fe_nexthops fe) as [|h0 l0] eqn:Efe.
      + (* turned down *)
        apply run_nack in Hrun as (e4 & e5 & tx & s5 & D5 & Hrun & Hcase); [|apply D4|by eexists]. pose proof (did_before _ _ _ _ _ _ D5) as E4. rewrite Hat4 in E4. injection E4 as <-.
        apply run_timer in Hrun as (e6 & s6 & D6 & Hrun); [|apply D5]. apply run_done in Hrun. subst s6. pose proof (did_before _ _ _ _ _ _ D6) as E4. rewrite (did_after _ _ _ _ _ _ D5) in E4. injection E4 as <-.
        pose proof (dd_core _ _ _ _ _ _ D5) as C5. pose proof (did_trans _ _ _ _ _ _ _ _ _ (did_trans _ _ _ _ _ _ _ _ _ D4 D5) D6) as D'. rewrite app_nil_r in D'. simpl in D'.
        pose proof (did_after _ _ _ _ _ _ D') as Hat'. pose proof (dd_inv _ _ _ _ _ _ D') as I'.
        assert (Hp2p : p2p_face s4 f <-> p2p_face s f) by (unfold p2p_face; by rewrite (sc_faces _ _ C4), (rd_faces _ _ _ _ _ _ R)).
        assert (He5 : pe_out e5 = pe_out e /\ pe_info e5 = pe_info e /\ (forall g, g <> f -> find_in g (pe_in e5) = find_in g (pe_in e))).
        { destruct Hcase as [(r' & _ & _ & -> & _)|(_ & -> & _)]; (split; [done|]; split; [done|]); intros g Hgf; [|by apply Hfo]. simpl. rewrite delete_in_find_other by done. by apply Hfo. }
        destruct He5 as (O5 & N5 & F5). exists (i_hint (pe_interest e)), [], (without_token i3), tx. split; [apply R|]. split; [done|]. split; [exact (rd_hop _ _ _ _ _ _ R)|]. split; [exact (rd_nonce _ _ _ _ _ _ R)|]. split; [done|].
        split; [unfold added; rewrite (dd_log _ _ _ _ _ _ D'), (rd_log _ _ _ _ _ _ R), <- app_assoc; done|]. split; [done|]. split; [unfold info_of at 1; rewrite Hat'; simpl; rewrite N5; apply R|]. cbv zeta.
        split; [done|]. split; [done|]. split; [|split].
        * intros _ _. split.
          { eexists. split; [exact Hat'|]. simpl. rewrite (sc_now _ _ C5), (sc_now _ _ C4), (rd_now _ _ _ _ _ _ R). f_equal. apply Z.add_0_r. }
          rewrite <- Hp2p. destruct Hcase as [(r' & A & B & -> & ->)|([A|A] & -> & ->)].
          -- split; [intros _|done]. split.
             ++ exists (ir_interest r'). assert (ir_interest r' = i3) as ->.
                { simpl in B. rewrite set_in_find, Hfr in B. simpl in B. injection B as <-. rewrite <- Hri. unfold set_in_info. by destruct (_ =? _)%N. }
                split; [exact (rd_hop _ _ _ _ _ _ R)|]. split; [exact (rd_nonce _ _ _ _ _ _ R)|]. split; [exact (rd_token _ _ _ _ _ _ R)|done].
             ++ intros r''. rewrite (in_rec s' k _ f r'' I' Hat'). simpl. destruct (entry_ok _ _ _ (dd_inv _ _ _ _ _ _ D4) Hat4) as [[N1 _ _ _] _]. destruct (delete_in_ok f _ N1) as (_ & Hd & _). simpl in Hd. rewrite Hd, decide_True by done. done.
          -- split; [done|]. intros _. split; [done|]. destruct Hfs as [r' Hr']. exists r'. split; [by apply (in_rec s' k _ f r' I' Hat')|]. by rewrite (Hff _ Hr').
          -- rewrite A in Hfs. by destruct Hfs.
        * intros g r' Hgf. rewrite (in_rec s' k _ g r' I' Hat'). simpl. rewrite F5 by done. by apply R.
        * intros g r' _. rewrite (out_rec s' k _ g r' I' Hat'). simpl. rewrite O5, (rd_out _ _ _ _ _ _ R). unfold out_record_of, outs_of. fold k. destruct (pit_at (fw_t s) k) as [e0|] eqn:E0.
          -- rewrite <- (out_rec s k e0 g r' I E0). unfold out_record_of. by rewrite E0.
          -- split; [done|]. by intros (? & ? & _).
      + destruct (Hmc false Hnd) as (hint & l & j & tx & A1 & A2 & A3 & A4 & A5 & A6 & A7 & A8 & A9 & A10 & A11 & A12 & A13 & A14 & A15); [done|exact Hrun|].
        exists hint, l, j, tx. do 8 (split; [done|]). cbv zeta. by (split; [|split; [|split; [|split]]]).
    - destruct (fe_nexthops fe) as [|h0 l0] eqn:Efe.
      + rewrite broadcast_spread in Hrun. destruct (Hcom false _ false _ Hnd (faces_nodup _) Hrun (fun g => nonlocal_face s g /\ may_go s f (i_name i) g)) as (tx & A & B & C & D & E & F & G).
        * intros g. rewrite (bc_spec s3 infc i3 f g Ef), Hnl, Hgo, faces_elem. split; [by intros [_ ?]|]. intros [(fc & Hfc & Hloc) ?]. split; [|split; [by exists fc|done]]. rewrite (rd_faces _ _ _ _ _ _ R). by exists fc.
        * exists (i_hint (pe_interest e)), [], (without_token i3), tx. split; [apply R|]. split; [done|]. split; [exact (rd_hop _ _ _ _ _ _ R)|]. split; [exact (rd_nonce _ _ _ _ _ _ R)|]. split; [done|].
          do 3 (split; [done|]). cbv zeta. by (split; [|split; [|split; [|split]]]).
      + destruct (Hmc true eq_refl) as (hint & l & j & tx & A1 & A2 & A3 & A4 & A5 & A6 & A7 & A8 & A9 & A10 & A11 & A12 & A13 & A14 & A15); [done|exact Hrun|].
        exists hint, l, j, tx. do 8 (split; [done|]). cbv zeta. by (split; [|split; [|split; [|split]]]).
  Qed.

  (** Data that matches one PIT entry.  If the Interest sent to the face it comes from was a discovery Interest, it goes to all that wait
      for it, and the announcement that comes with it is handed to the RIB.  If it was a non-discovery Interest, the Data goes to all that wait
      for it, unless one of them sent a discovery Interest and not all are local: then an announcement is asked for, and nobody gets
      the Data before it has been found; the entry stays for another second.  If no Interest was sent to that face, nobody gets it *)
  Theorem C66_data s f d s' k p inst : reachable s -> ev_ok s (EvData f d) -> step s (EvData f d) = Some s' -> (localhost (d_name d) -> local_face s f) ->
    is_Some (pit_at (fw_t s) k) -> satisfies k d -> (forall k', is_Some (pit_at (fw_t s) k') -> satisfies k' d -> k' = k) ->
    governs (fun m => sc_at (fw_t s) m) (pk_name k) p inst -> strategies inst = learner ->
    let answered asked := exists tx, answers_all s f k d tx /\ added s s' (tx ++ [Rx_data f d]) /\ answered_leaves s s' f k /\ posted s s' asked /\ expires s' k (now (fw_t s)) /\ info_of s' k = info_of s k in
    let n := Z.of_nat (length (fw_log s)) in
    ((forall r, ~ out_record_of s k f r) -> added s s' [Rx_data f d] /\ pending_kept s s' k /\ posted s s' [] /\ expires s' k (now (fw_t s)) /\ info_of s' k = info_of s k) /\
    (marked_out s k f true -> wants_ann s k ->
       added s s' [Rx_data f d] /\ pending_kept s s' k /\ posted s s' [(1%N, [n])] /\ expires s' k (now (fw_t s) + 1000000000) /\
       packet s' n (Rx_data f d) /\ (forall m, waiting s' k m <-> m = n \/ waiting s k m) /\ rest_kept 1042 (info_of s k) (info_of s' k)) /\
    (marked_out s k f true -> ~ wants_ann s k -> answered []) /\
    ((exists r, out_record_of s k f r) -> ~ marked_out s k f true ->
       answered (match get_ann (d_content d) with Some pa => [(2%N, [pa; Z.of_N f; 600000%Z])] | None => [] end)) /\
    (* the out-record goes *)
    (forall g r, out_record_of s' k g r <-> out_record_of s k g r /\ g <> f).
  Proof.
    intros Hr Ho H Hloc [e He] Hsat Hone Hgov Hst. pose proof (inv_of Hr) as I. apply step_event in H. simpl in H. eapply data_cases in H as (fc & Hf & Hc); [|exact W|done|done].
    assert (Hkey : forall k e, pit_at (fw_t s) k = Some e -> matches_data (pe_interest e) d = true <-> satisfies k d).
    { intros k1 e1 He1. apply satisfies_iff. by destruct (entry_ok _ _ _ I He1). }
    assert (Hmat : matching s d k) by (exists e; split; [done|by apply (Hkey k)]).
    destruct Hc as [Hl Hn Hs'|Hns Hno Hs'|k1 e1 s1 s2 s3 Hns He1 Hks (c & _ & -> & I1) Hw2 (p1 & inst1 & Heff & Hrun) Hfin|ks s1 s2 pend Hns Hnd Hlen Hks _ _ _ _ _].
    { apply is_localhost_spec in Hn. destruct (Hloc Hn) as (fc' & ? & ?). congruence. }
    { by destruct (Hno k). }
    2: { exfalso. destruct ks as [|k1 [|k2 ks]]; simpl in Hlen; [lia|lia|]. apply NoDup_cons in Hnd as [Hx _]. apply Hx.
         assert (H1 : matching s d k1) by (apply Hks; by left). assert (H2 : matching s d k2) by (apply Hks; right; by left).
         destruct H1 as (e1 & He1 & Hm1), H2 as (e2 & He2 & Hm2). rewrite (Hone k1), (Hone k2); [left|by exists e2|by apply (Hkey k2 e2)|by exists e1|by apply (Hkey k1 e1)]. }
    apply Hks in Hmat as <-. rewrite He in He1. injection He1 as <-. clear Hks.
    set (s0 := set_cs c (got (Rx_data f d) inc_in_data s)) in *. pose proof (wr_core _ _ _ _ _ Hw2) as C2. pose proof (wr_inv _ _ _ _ _ Hw2) as I2.
    assert (Hf2 : fw_faces s2 = fw_faces s) by (by rewrite (sc_faces _ _ C2)). assert (Hn2 : now (fw_t s2) = now (fw_t s)) by (by rewrite (sc_now _ _ C2)).
    destruct (wrote_at _ _ _ _ _ Hw2) as [_ He2]. assert (Hl2 : fw_log s2 = [Rx_data f d] ++ fw_log s) by (by rewrite (wr_log _ _ _ _ _ Hw2)). assert (Hp2 : fw_priv s2 = fw_priv s) by (by rewrite (wr_priv _ _ _ _ _ Hw2)).
    assert (inst1 = inst) as ->.
    { apply effective_ok in Heff as [E1 E2]; [|apply (iv_tab _ I2)]. destruct Hgov as [G1 G2].
      assert (p1 = p) as ->; [|rewrite (sc_sc _ _ C2) in E2; change (sc_at (fw_t s) p = Some inst1) in E2; rewrite G2 in E2; by injection E2]. eapply longest_defined_fun; [|exact G1]. eapply (longest_ext (fun m => sc_at (fw_t s2) m)); [|exact E1]. intros m. by rewrite (sc_sc _ _ C2). }
    assert (Hin2 : forall g r, in_record_of s2 k g r <-> in_record_of s k g r) by (intros g r; by rewrite (in_rec s2 k _ g r I2 He2), (in_rec s k e g r I He)).
    destruct (finished_spec _ _ _ _ _ _ _ _ Hfin) as (I' & _ & F3 & _ & _ & _ & _ & e3 & He3 & He').
    assert (Hp' : fw_priv s' = fw_priv s3).
    { destruct Hfin as (e0 & t1 & t2 & W1 & Hdn & W2'). destruct (dnl_step _ _ _ _ _ _ _ Hdn) as (dn & m & ->). by rewrite (wr_priv _ _ _ _ _ W2'), <- (wr_priv _ _ _ _ _ W1). }
    unfold after_receive_data in Hrun. rewrite Hst in Hrun. cbn [self_learning st_data] in Hrun.
    assert (I3 : Inv s3) by (eapply satoms_inv; [exact I2|]; refine (run_satoms rand face_order (wo_order _ _ _ W) None k _ s2 s3 tt I2 _ Hrun); done). unfold sl_data in Hrun. apply run_with in Hrun as (e2 & E2 & Hrun). rewrite He2 in E2. injection E2 as <-. simpl pe_out in Hrun.
    (* what follows the trigger *)
    assert (Hin' : forall g r, in_record_of s' k g r <-> in_record_of s3 k g r) by (intros g r; by rewrite (in_rec s' k _ g r I' He'), (in_rec s3 k e3 g r I3 He3)).
    assert (Hout' : pe_out e3 = pe_out e -> forall g r, out_record_of s' k g r <-> out_record_of s k g r /\ g <> f).
    { intros E g r. rewrite (out_rec s' k _ g r I' He'), (out_rec s k e g r I He). simpl. rewrite E. destruct (entry_ok _ _ _ I He) as [[_ N2 _ _] _]. destruct (delete_out_ok f (pe_out e) N2) as (_ & Hd & _). rewrite Hd. case_decide; [by split; [|intros []]|]. by split; [|intros []]. }
    assert (Hans : forall asked s4, fw_priv s4 = asked ++ fw_priv s -> same_core s2 s4 -> pit_at (fw_t s4) k = pit_at (fw_t s2) k -> fw_log s4 = fw_log s2 -> Inv s4 -> run rand face_order None k (PDataToAll d f PDone) s4 = Some (s3, tt) ->
      (exists tx, answers_all s f k d tx /\ added s s' (tx ++ [Rx_data f d]) /\ answered_leaves s s' f k /\ posted s s' asked /\ expires s' k (now (fw_t s)) /\ info_of s' k = info_of s k) /\ pe_out e3 = pe_out e).
    { intros asked s4 Hp4 C4 He4 Hl4 I4 Hq. rewrite He2 in He4. pose proof (run_no_request rand face_order None k (PDataToAll d f PDone) Logic.I _ _ _ Hq) as Hp3.
      apply (run_data_to_all rand face_order (wo_order _ _ _ W) _ _ _ _ _ _ _ (set_timer (now (fw_t s)) e)) in Hq as (L & tx & s5 & D & Hq & Ha & Hlv); [|done|done]. apply run_done in Hq. subst s5.
      assert (Hin4 : forall g r, in_record_of s4 k g r <-> in_record_of s k g r) by (intros g r; rewrite (in_rec s4 k _ g r I4 He4), (in_rec s k e g r I He); done).
      assert (Hf4 : fw_faces s4 = fw_faces s) by (by rewrite (sc_faces _ _ C4)). assert (Hn4 : now (fw_t s4) = now (fw_t s)) by (by rewrite (sc_now _ _ C4)).
      pose proof (did_after _ _ _ _ _ _ D) as E3. rewrite He3 in E3. injection E3 as ->. split; [|done]. exists tx. split; [by apply (answers_ext s s4)|].
      split; [unfold added; rewrite F3, (dd_log _ _ _ _ _ _ D), Hl4, Hl2; by rewrite <- app_assoc|]. split; [by eapply leaves_ext|]. split; [unfold posted; by rewrite Hp', Hp3|].
      split; [eexists; split; [exact He'|done]|]. unfold info_of. rewrite He', He. done. }
    assert (Hom : forall b, marked_out s k f b <-> exists r, find_out f (pe_out e) = Some r /\ info_get SL_OUT (fr_info (or_rec r)) = Some (flag b)).
    { intros b. unfold marked_out. split; intros (r & A & B); exists r; [apply (out_rec s k e) in A; [|done|done]|split; [by apply (out_rec s k e)|]]; [split; [done|]|]; by apply item_get. }
    assert (Hnone : (forall r, ~ out_record_of s k f r) <-> find_out f (pe_out e) = None).
    { split; [intros Hx; destruct (find_out f (pe_out e)) as [r|] eqn:E; [|done]; destruct (Hx r); by apply (out_rec s k e)|]. intros Hx r Hr'%(out_rec s k e); [congruence|done|done]. }
    intros answered n. destruct (find_out f (pe_out e)) as [r|] eqn:Eo.
    - assert (Hex : ~ forall r, ~ out_record_of s k f r) by (by rewrite Hnone).
      assert (Hm : marked_out s k f true <-> info_get SL_OUT (fr_info (or_rec r)) = Some [1%Z]) by (rewrite Hom; split; [by intros (? & [= <-] & ?)|intros; by exists r]).
      destruct (decide (info_get SL_OUT (fr_info (or_rec r)) = Some [1%Z])) as [E1|E1].
      + rewrite E1 in Hrun. assert (Hwn : need_prefix_ann s2 (set_timer (now (fw_t s)) e) = true <-> wants_ann s k).
        { rewrite (need_spec s2 k) by done. unfold wants_ann, live, nonlocal_face. setoid_rewrite Hin2. by rewrite Hf2, Hn2. }
        destruct (need_prefix_ann s2 _) eqn:En.
        * apply run_post in Hrun as (s4 & Hrun & Es4 & I4 & C4); [|done]. assert (Hk1 : fw_priv s3 = fw_priv s4) by (eapply run_no_request; [|exact Hrun]; done). apply run_timer in Hrun as (e4 & s5 & D5 & Hrun); [|done]. apply run_info in Hrun as (e5 & s6 & D6 & Hrun); [|apply D5]. apply run_done in Hrun. subst s6.
          pose proof (did_before _ _ _ _ _ _ D5) as E4. assert (Ht4 : fw_t s4 = fw_t s2) by (by subst s4). rewrite Ht4, He2 in E4. injection E4 as <-. pose proof (did_before _ _ _ _ _ _ D6) as E4. rewrite (did_after _ _ _ _ _ _ D5) in E4. injection E4 as <-.
          pose proof (did_trans _ _ _ _ _ _ _ _ _ D5 D6) as D. simpl in D. rewrite Ht4 in D. pose proof (did_after _ _ _ _ _ _ D) as E3. rewrite He3 in E3. injection E3 as E3.
          assert (Hpn : packet_no s2 = n) by (unfold packet_no, n; rewrite Hl2; simpl; lia).
          split; [done|]. split; [|split; [intros _ Hx; destruct Hx; by apply Hwn|]; split; [intros _ Hx; destruct Hx; by apply Hm|apply Hout'; by rewrite E3]]. intros _ _.
          assert (Hlog' : fw_log s' = Rx_data f d :: fw_log s) by (rewrite F3, (dd_log _ _ _ _ _ _ D); subst s4; exact Hl2).
          assert (Hinfo' : info_of s' k = info_set SL_WAIT (n :: waiting_for (pe_info e)) (pe_info e)) by (unfold info_of; rewrite He'; simpl; rewrite E3; simpl; by rewrite Hpn).
          assert (Hinfo : info_of s k = pe_info e) by (unfold info_of; by rewrite He).
          split; [done|]. split; [intros g r'; rewrite Hin', (in_rec s3 k e3 g r' I3 He3), E3; simpl; by rewrite (in_rec s k e g r' I He)|].
          split; [|split; [|split; [|split]]].
          -- unfold posted. rewrite Hp'. rewrite Hk1. subst s4. simpl. by rewrite Hpn, Hp2.
          -- eexists. split; [exact He'|]. simpl. rewrite E3. simpl. by rewrite Hn2.
          -- exists [], (fw_log s). done.
          -- intros m. unfold waiting. rewrite Hinfo', Hinfo. split.
             ++ intros (l & Hl%item_get & Hml). change 1042%N with SL_WAIT in Hl. rewrite (proj2 (item_get _ _ _) (item_set _ _ _)) in Hl. injection Hl as <-. apply elem_of_cons in Hml as [->|Hml]; [by left|]. right. unfold waiting_for in Hml. destruct (info_get SL_WAIT (pe_info e)) as [l|] eqn:El; [|by apply elem_of_nil in Hml]. exists l. split; [by apply item_get|done].
             ++ intros Hx. eexists. split; [apply item_set|]. apply elem_of_cons. destruct Hx as [->|(l & Hl%item_get & Hml)]; [by left|]. right. unfold waiting_for. change 1042%N with SL_WAIT in Hl. by rewrite Hl.
          -- rewrite Hinfo', Hinfo. apply kept_set.
        * destruct (Hans [] s2) as [A B]; [by rewrite Hp2|apply same_core_refl|done|done|done|exact Hrun|]. split; [done|]. split; [intros _ Hx; apply Hwn in Hx; done|]. split; [intros _ _; exact A|]. split; [intros _ Hx; destruct Hx; by apply Hm|by apply Hout'].
      + assert (Hrun' : run rand face_order None k (match get_ann (d_content d) with Some pa => sl_post SL_ANNOUNCE (fun _ => [pa; Z.of_N f; SL_LIFETIME]) (PDataToAll d f PDone) | None => PDataToAll d f PDone end) s2 = Some (s3, tt)).
        { destruct (info_get SL_OUT _) as [[|[|[]|] []]|]; done. }
        clear Hrun. rename Hrun' into Hrun. assert (A : answered (match get_ann (d_content d) with Some pa => [(2%N, [pa; Z.of_N f; 600000%Z])] | None => [] end) /\ pe_out e3 = pe_out e).
        { destruct (get_ann (d_content d)) as [pa|].
          - apply run_post in Hrun as (s4 & Hrun & Es4 & I4 & C4); [|done]. subst s4. eapply Hans; [|exact C4|done|done|exact I4|exact Hrun]. simpl. by rewrite Hp2.
          - eapply Hans; [|apply same_core_refl|done|done|done|exact Hrun]. done. }
        destruct A as [A B]. split; [done|]. rewrite Hm. split; [done|]. split; [done|]. split; [done|by apply Hout'].
    - apply run_done in Hrun. subst s3. rewrite He2 in He3. injection He3 as <-. assert (Hno : forall r, ~ out_record_of s k f r) by (by apply Hnone).
      assert (Hnm : forall b, ~ marked_out s k f b) by (intros b (r & A & _); by apply Hno in A).
      split; [|split; [intros Hx; by apply Hnm in Hx|split; [intros Hx; by apply Hnm in Hx|split; [intros [r Hx]; by apply Hno in Hx|by apply Hout']]]].
      intros _. split; [unfold added; by rewrite F3|]. split; [intros g r; by rewrite Hin'|]. split; [unfold posted; by rewrite Hp'|]. split; [eexists; split; [exact He'|done]|]. unfold info_of. by rewrite He', He.
  Qed.

  (** When an announcement [pa] has been found for the Data that was packet [n], the Data goes, with the announcement, to all that
      wait for it by then, once; unless the face it came from is gone *)
  Theorem C66_found s k s' inst n pa : reachable s -> strategies inst = learner -> step s (EvAsync inst [n; pa] k) = Some s' ->
    (forall f d, waiting s k n -> packet s n (Rx_data f d) ->
       (face_exists s f -> exists tx, answers_all s f k (Data (d_name d) (d_digest d) (d_fresh d) (d_nocache d) (put_ann pa (d_content d))) tx /\
          added s s' tx /\ answered_leaves s s' f k /\ expires s' k (now (fw_t s))) /\
       (~ face_exists s f -> added s s' [] /\ pending_kept s s' k /\ forall t, expires s' k t <-> expires s k t)) /\
    (waiting s k n -> (forall m, waiting s' k m <-> waiting s k m /\ m <> n) /\ rest_kept 1042 (info_of s k) (info_of s' k)) /\
    (~ waiting s k n -> s' = s) /\
    (forall g r, out_record_of s' k g r <-> out_record_of s k g r) /\ posted s s' [].
  Proof.
    intros Hr Hst H. pose proof (inv_of Hr) as I. apply step_event in H. simpl in H. rewrite Hst in H. cbn [self_learning st_async] in H.
    assert (Hpost : posted s s' []).
    { unfold posted. simpl. refine (run_no_request rand face_order None k _ _ _ _ _ H). cbn [sl_found no_request]. intros s0. destruct (pit_get k (fw_t s0)); [|done]. destruct (existsb _ _); [|done]. cbn [no_request].
      destruct (packet_at s0 n) as [[]|]; try done. by destruct (fw_faces s0 !! _). }
    unfold sl_found in H. rewrite read_run in H. change (pit_get k (fw_t s)) with (pit_at (fw_t s) k) in H.
    destruct (pit_at (fw_t s) k) as [e|] eqn:He.
    2: { apply run_done in H. subst s'. assert (Hw : forall m, ~ waiting s k m) by (intros m (l & (si1 & si2 & E & _) & _); unfold info_of in E; rewrite He in E; by destruct si1). split; [intros f d Hx; by apply Hw in Hx|]. split; [intros Hx; by apply Hw in Hx|]. done. }
    assert (Hinfo : info_of s k = pe_info e) by (unfold info_of; by rewrite He).
    assert (Hwf : forall m, waiting s k m <-> m ∈ waiting_for (pe_info e)).
    { intros m. unfold waiting, waiting_for. rewrite Hinfo. split.
      - intros (l & Hl%item_get & Hm). change 1042%N with SL_WAIT in Hl. by rewrite Hl.
      - destruct (info_get SL_WAIT (pe_info e)) as [l|] eqn:El; [|by intros ?%elem_of_nil]. intros Hm. exists l. split; [by apply item_get|done]. }
    destruct (existsb _ _) eqn:Ex.
    2: { apply run_done in H. subst s'. assert (Hn : ~ waiting s k n). { rewrite Hwf. intros Hx%elem_of_list_In. assert (existsb (Z.eqb n) (waiting_for (pe_info e)) = true); [|congruence]. apply existsb_exists. exists n. split; [done|apply Z.eqb_refl]. }
         split; [done|]. split; [done|]. done. }
    assert (Hn : waiting s k n) by (apply Hwf, elem_of_list_In; apply existsb_exists in Ex as (m & Hm & ->%Z.eqb_eq); done).
    set (si := info_set SL_WAIT _ _) in H. apply run_info in H as (e0 & s1 & D1 & H); [|done]. pose proof (did_before _ _ _ _ _ _ D1) as E0. rewrite He in E0. injection E0 as <-. pose proof (dd_core _ _ _ _ _ _ D1) as C1.
    assert (Hlast : exists e' tx, did k (with_info si e) e' tx s1 s' /\ pe_info e' = si /\ pe_out e' = pe_out e /\ forall f d, packet_at s n = Some (Rx_data f d) ->
      (face_exists s f -> answers_all s f k (attach put_ann pa d) tx /\ answered_leaves s s' f k /\ pe_timer e' = Some (now (fw_t s))) /\ (~ face_exists s f -> tx = [] /\ e' = with_info si e)).
    { assert (Hnil : s' = s1 -> did k (with_info si e) (with_info si e) [] s1 s') by (intros ->; apply did_refl; [apply D1|exact (did_after _ _ _ _ _ _ D1)]).
      destruct (packet_at s n) as [x|] eqn:Ep; [|apply run_done in H; subst s'; exists (with_info si e), []; by split; [apply Hnil|]].
      destruct x as [| | | |f d|]; try (apply run_done in H; subst s'; exists (with_info si e), []; by split; [apply Hnil|]).
      destruct (fw_faces s !! f) as [fc|] eqn:Ef.
      2: { apply run_done in H. subst s'. exists (with_info si e), []. split; [by apply Hnil|]. split; [done|]. split; [done|]. intros f0 d0 [= <- <-]. split; [|done]. intros [fc Hx]. congruence. }
      apply (run_data_to_all rand face_order (wo_order _ _ _ W) _ _ _ _ _ _ _ (with_info si e)) in H as (L & tx & s2 & D2 & H & Ha & Hl); [|apply D1|exact (did_after _ _ _ _ _ _ D1)].
      apply run_timer in H as (e2 & s3 & D3 & H); [|apply D2]. apply run_done in H. subst s3. pose proof (did_before _ _ _ _ _ _ D3) as E2. rewrite (did_after _ _ _ _ _ _ D2) in E2. injection E2 as <-.
      pose proof (did_trans _ _ _ _ _ _ _ _ _ D2 D3) as D. simpl in D. eexists _, tx. split; [exact D|]. split; [done|]. split; [done|]. intros f0 d0 [= <- <-]. split; [|intros Hx; destruct Hx; by exists fc]. intros _.
      assert (Hin1 : forall g r, in_record_of s1 k g r <-> in_record_of s k g r) by (intros g r; rewrite (in_rec s1 k _ g r (dd_inv _ _ _ _ _ _ D1) (did_after _ _ _ _ _ _ D1)), (in_rec s k e g r I He); done).
      split; [apply (answers_ext s s1); [done|apply C1|apply C1|done]|]. split.
      - eapply (leaves_ext s s1 s2); [done|apply C1|apply C1| |done]. intros g r. rewrite (in_rec s' k _ g r (dd_inv _ _ _ _ _ _ D) (did_after _ _ _ _ _ _ D)), (in_rec s2 k _ g r (dd_inv _ _ _ _ _ _ D2) (did_after _ _ _ _ _ _ D2)). done.
      - simpl. rewrite (sc_now _ _ (dd_core _ _ _ _ _ _ D2)), (sc_now _ _ C1). f_equal. apply Z.add_0_r. }
    destruct Hlast as (e' & tx & D & Hsi & Hout & Hcase). pose proof (did_trans _ _ _ _ _ _ _ _ _ D1 D) as D'. rewrite app_nil_r in D'. pose proof (did_after _ _ _ _ _ _ D') as He'. pose proof (dd_inv _ _ _ _ _ _ D') as I'.
    split; [|split; [|split; [done|split; [|done]]]].
    - intros f d _ Hp%packet_spec. destruct (Hcase f d Hp) as [A B]. split.
      + intros Hf. destruct (A Hf) as (A1 & A2 & A3). exists tx. split; [done|]. split; [exact (dd_log _ _ _ _ _ _ D')|]. split; [done|]. by exists e'.
      + intros Hf. destruct (B Hf) as [-> ->]. split; [exact (dd_log _ _ _ _ _ _ D')|]. split; [intros g r; rewrite (in_rec s' k _ g r I' He'), (in_rec s k e g r I He); done|].
        intros t. unfold expires. rewrite He', He. split; intros (e2 & [= <-] & Ht); by eexists.
    - intros _. assert (Hi' : info_of s' k = si) by (unfold info_of; by rewrite He'). split; [|rewrite Hi', Hinfo; apply kept_set].
      intros m. rewrite Hwf. unfold waiting. rewrite Hi'. split.
      + intros (l & Hl%item_get & Hm). change 1042%N with SL_WAIT in Hl. unfold si in Hl. rewrite (proj2 (item_get _ _ _) (item_set _ _ _)) in Hl. injection Hl as <-. apply elem_of_list_In, filter_In in Hm as [Hm1 Hm2]. split; [by apply elem_of_list_In|]. intros ->. by rewrite Z.eqb_refl in Hm2.
      + intros [A B]. eexists. split; [apply item_set|]. apply elem_of_list_In, filter_In. split; [by apply elem_of_list_In|]. destruct (Z.eqb_spec m n); done.
    - intros g r. by rewrite (out_rec s' k _ g r I' He'), (out_rec s k e g r I He), Hout.
  Qed.

  (** A Nack NoRoute is passed on to all the downstreams, and the route is to be renewed; other Nacks change nothing *)
  Theorem C66_nack s f i reason s' inst p : reachable s -> ev_ok s (EvNack f i reason) -> step s (EvNack f i reason) = Some s' ->
    p2p_face s f -> (exists o, out_record_of s (key_of i) f o /\ fr_nonce (or_rec o) = i_nonce i) ->
    governs (fun m => sc_at (fw_t s) m) (i_name i) p inst -> (forall l, order l ≡ₚ l) -> strategies inst = learner ->
    (reason = 150%N -> exists tx, NoDup tx /\ added s s' (tx ++ [Rx_nack f i reason]) /\
       (forall x, x ∈ tx <-> exists g r, in_record_of s (key_of i) g r /\ p2p_face s g /\ x = Tx_nack g (ir_interest r) 150) /\
       posted s s' [(3%N, [Z.of_nat (length (fw_log s)); Z.of_N f; 0%Z])]) /\
    (reason <> 150%N -> added s s' [Rx_nack f i reason] /\ pending_kept s s' (key_of i) /\ posted s s' [] /\ info_of s' (key_of i) = info_of s (key_of i)).
  Proof.
    intros Hr Ho H Hpf (o & Hor & Hno) Hgov Hord Hst. pose proof (inv_of Hr) as I. apply step_event in H. simpl in H. apply nack_cases in H as (fc & Hf & Hcase); [|done].
    destruct Hor as (e & He & Hoe & Hof). destruct (entry_ok _ _ _ I He) as [[N1 N2 _ _] Hk].
    assert (Hfo : find_out f (pe_out e) = Some o) by (rewrite <- Hof; by apply elem_find_out).
    destruct Hcase as [Hbad _|e' r s1 s2 q inst' _ He' Hr' Hn' W1 W2 Heff Hrun].
    { exfalso. destruct Hbad as [Hl|Hx]; [destruct Hpf as (fc' & ? & ?); congruence|by apply (Hx e o)]. }
    rewrite He in He'. injection He' as <-. rewrite Hfo in Hr'. injection Hr' as <-. set (e1 := nacked f (i_nonce i) reason e) in *.
    assert (D2 : exists e2, did (key_of i) e e2 [] (got (Rx_nack f i reason) inc_in_nacks s) s2 /\ pe_in e2 = pe_in e /\ pe_info e2 = pe_info e /\ fw_priv s2 = fw_priv s).
    { pose proof (wr_priv _ _ _ _ _ W1) as P1. destruct (has_pending_out (now (fw_t s)) e1); [subst s2; exists e1; split; [by apply wrote_did|done]|]. exists (set_timer (now (fw_t s)) e1). split; [eapply (did_trans _ _ _ _ [] []); by apply wrote_did|]. split; [done|]. split; [done|]. by rewrite (wr_priv _ _ _ _ _ W2), P1. }
    destruct D2 as (e2 & D2 & Ei & En & Hp2). pose proof (dd_core _ _ _ _ _ _ D2) as C2. pose proof (dd_inv _ _ _ _ _ _ D2) as I2. pose proof (did_after _ _ _ _ _ _ D2) as Hat.
    assert (inst' = inst) as ->.
    { apply effective_ok in Heff as [E1 E2]; [|apply (iv_tab _ (dd_inv _ _ _ _ _ _ D2))]. destruct Hgov as [G1 G2].
      assert (q = p) as ->; [|rewrite (sc_sc _ _ C2) in E2; change (sc_at (fw_t s) p = Some inst') in E2; rewrite G2 in E2; by injection E2]. eapply longest_defined_fun; [|exact G1]. eapply (longest_ext (fun m => sc_at (fw_t s2) m)); [|exact E1]. intros m. by rewrite (sc_sc _ _ C2). }
    assert (Hl2 : fw_log s2 = Rx_nack f i reason :: fw_log s) by (exact (dd_log _ _ _ _ _ _ D2)).
    assert (Hin : forall g r, find_in g (pe_in e2) = Some r <-> in_record_of s (key_of i) g r) by (intros g r; by rewrite Ei, (in_rec s (key_of i) e g r I He)).
    assert (Hpf2 : forall g, p2p_face s2 g <-> p2p_face s g) by (intros g; unfold p2p_face; by rewrite (sc_faces _ _ C2)).
    rewrite Hst in Hrun. cbn [self_learning st_nack] in Hrun. unfold sl_nack in Hrun. change NACK_NO_ROUTE with 150%N in Hrun. destruct (N.eqb_spec reason 150) as [->|Hne].
    - apply run_with in Hrun as (e2' & He2 & Hrun). rewrite Hat in He2. injection He2 as <-. destruct (lookup_fib s2 e2) as [fe|]; [|done]. destruct (fe_nexthops fe) as [|h0 l0]; [done|].
      apply run_post in Hrun as (s3 & Hrun & Es3 & I3 & C3); [|done]. assert (Hpr : fw_priv s' = fw_priv s3) by (eapply run_no_request; [|exact Hrun]; apply nack_each_quiet). unfold send_nacks in Hrun.
      assert (Hnd : NoDup (order (map (fun r => fr_face (ir_rec r)) (pe_in e2)))) by (rewrite Hord, Ei; exact N1).
      assert (Hat3 : pit_at (fw_t s3) (key_of i) = Some e2) by (by subst s3). apply (run_nack_each rand face_order None _ _ _ _ _ e2) in Hrun as (e3 & tx & D3 & Hn3 & Hx3); [|done|done|done].
      split; [|done].
      + intros _. exists tx. split; [done|]. split; [unfold added; rewrite (dd_log _ _ _ _ _ _ D3); subst s3; simpl; rewrite Hl2, <- app_assoc; done|]. split.
        * intros x. rewrite Hx3. assert (Hp3 : forall g, p2p_face s3 g <-> p2p_face s g) by (intros g; rewrite <- Hpf2; unfold p2p_face; by rewrite (sc_faces _ _ C3)). split.
          -- intros (g & r & _ & A & B & ->). exists g, r. split; [by apply Hin|]. split; [by apply Hp3|done].
          -- intros (g & r & A%Hin & B & ->). exists g, r. split; [|split; [by apply Hp3|done]]. rewrite Hord. apply find_in_Some in A as [A <-]. by apply (elem_of_list_fmap_1 (fun r => fr_face (ir_rec r))).
        * unfold posted. rewrite Hpr. subst s3. simpl. unfold packet_no. rewrite Hl2, Hp2. simpl length. do 3 f_equal. f_equal. lia.
    - apply run_done in Hrun. subst s'. split; [done|]. intros _. split; [done|]. split; [|split; [done|unfold info_of; by rewrite Hat, He]]. intros g r. by rewrite (in_rec s2 _ _ g r I2 Hat), Hin.
  Qed.
  (** An Interest that loops is answered with a Nack of reason Duplicate, over a point-to-point link only *)
  Theorem C66_loop s f i s' p inst : reachable s -> ev_ok s (EvInterest f i) -> step s (EvInterest f i) = Some s' -> strategies inst = learner ->
    i_hop i <> Some 0%N -> (localhost (i_name i) -> local_face s f) ->
    Dnl_Model.dnl_has make_entry (fw_dnl s) (i_name i) (i_nonce i) = true \/ looping s f i ->
    governs (fun m => sc_at (fw_t s) m) (i_name i) p inst ->
    (p2p_face s f -> exists j, one_hop i j /\ i_nonce j = i_nonce i /\ i_token j = i_token i /\ added s s' [Tx_nack f j 100; Rx_interest f i]) /\
    (~ p2p_face s f -> added s s' [Rx_interest f i]).
  Proof.
    intros R Ho H Hst Hh Hs Hl Hg. destruct (loop_exact _ _ _ _ _ _ _ s f i s' p inst (inv_of R) Ho H Hh Hs Hl Hg) as [H1 H2]. rewrite Hst in *. split; [intros Hp; by apply H1|intros Hp; apply H2; by left].
  Qed.
End props.

(** ** It respects scope, also when an announcement is found *)
Lemma obeys_spread (R : fw -> Prop) (K : fw -> act -> Prop) skip mark nd k l : (forall g s, skip g = false -> K s (AInterest Trigger None mark g)) -> forall s, obeys R K s (spread skip mark nd k l).
Proof.
  intros HK. induction l as [|g l IH]; intros s; cbn [spread]; [constructor|]. cbv zeta. destruct (skip g) eqn:E; [done|]. constructor; [by apply HK|]. intros []; [|done].
  constructor. intros s1 _. destruct (pit_get _ _); [|constructor]. destruct (find_out _ _); [|constructor]. constructor. done.
Qed.
Theorem C24_self_learning get_ann put_ann order : scoped (self_learning get_ann put_ann order).
Proof.
  split.
  - intros F i f k s HF. cbn [self_learning st_interest]. unfold sl_interest. constructor. intros s1 [HF1 _]. destruct (pit_get k (fw_t s1)) as [e|]; [|constructor]. destruct (lookup_fib s1 e) as [fe|]; [|constructor].
    destruct (find_in _ _); [|constructor]. destruct (fw_faces s1 !! f) as [infc|] eqn:Ef; [|constructor]. constructor.
    assert (Hm : forall mark l, obeys (sees F) (fun s' a => match a with AInterest _ _ _ g => scope_ok F f (i_name i) g | _ => True end) s1 (sl_multicast (fw_faces s1) mark i f e k l)).
    { intros mark l. rewrite multicast_spread. apply obeys_spread. intros g s2 Hg%negb_false_iff. apply (eligible_may_go s1 f i (NextHop g 0) e) in Hg as (_ & _ & Hg); [|by exists infc]. simpl in Hg. by rewrite HF1 in Hg. }
    destruct (i_nondisc i), (fe_nexthops fe); try apply Hm.
    + repeat constructor.
    + rewrite broadcast_spread. apply obeys_spread. intros g s2 Hg%bc_spec; [|done]. destruct Hg as (_ & _ & _ & Hg). by rewrite HF1 in Hg.
  - intros F d f k s HF. constructor.
  - intros F p d f k [= <-] s HF. constructor. intros s1 _. destruct (pit_get k (fw_t s1)) as [e|]; [|constructor]. destruct (find_out _ _) as [r|]; [|constructor].
    assert (Ha : forall s, obeys (sees F) (fun s' a => match a with AInterest _ _ _ g => downstream_ok F k s' g | _ => True end) s (match get_ann (d_content d) with Some pa => sl_post SL_ANNOUNCE (fun _ => [pa; Z.of_N f; SL_LIFETIME]) (PDataToAll d f PDone) | None => PDataToAll d f PDone end)).
    { intros s2. destruct (get_ann _); repeat constructor. }
    destruct (info_get _ _) as [[|[|[]|] []]|]; try apply Ha. destruct (need_prefix_ann _ _); repeat constructor.
  - intros F i r f k s HF. cbn [self_learning st_nack]. unfold sl_nack. destruct (_ =? _)%N; [|constructor]. constructor. intros s1 _. destruct (pit_get k (fw_t s1)) as [e|]; [|constructor]. destruct (lookup_fib s1 e) as [fe|]; [|constructor]. destruct (fe_nexthops fe); [constructor|].
    constructor. intros s2 _. constructor. unfold send_nacks. generalize (order (map (fun r => fr_face (ir_rec r)) (pe_in e))). induction l0 as [|g l0 IH]; simpl; constructor; done.
  - intros F nh k s HF. constructor.
  - intros F arg k s HF. cbn [self_learning st_async]. unfold sl_found. destruct arg as [|n [|pa [|]]]; try constructor. intros s1 _. destruct (pit_get k (fw_t s1)) as [e|]; [|constructor]. destruct (existsb _ _); [|constructor]. constructor.
    destruct (packet_at s1 n) as [[]|]; try constructor. destruct (fw_faces s1 !! _); repeat constructor.
Qed.

(** ** Cases that meet the hypotheses
    The nexthops of /1 are 257 and 258; face 256 is local.  Content [c] carries announcement [c / 1000], if not 0 *)
Definition ex_get (c : N) : option Z := if (c / 1000 =? 0)%N then None else Some (Z.of_N (c / 1000)).
Definition ex_put (pa : Z) (c : N) : N := (c + 1000 * Z.to_N pa)%N.
Definition ex_learner : strategy := self_learning ex_get ex_put (fun l => l).
Definition sl_ask (f : N) (n : name) (nonce : N) (nd : bool) : event := EvInterest f (Interest n false false nonce 4000 None [] None None nd).
Definition sl_reply (n : name) (c : N) : data := Data n (replicate 32 7%N) 1000 false c.
(** what was sent, oldest first *)
Definition sl_tx (s : fw) : list io := rev (List.filter (fun x => match x with Tx_interest _ _ | Tx_data _ _ _ | Tx_nack _ _ _ => true | _ => false end) (fw_log s)).
Definition sl_seen (s : fw) : list (N * N) := map (fun x => match x with Tx_interest g j => (g, if i_nondisc j then 1 else 0) | Tx_data g d _ => (g, 100 + d_content d) | Tx_nack g _ r => (g, 10000 + r) | _ => (0, 0) end)%N (sl_tx s).
Definition sl_key (x : N) : pit_key := key_of (ex_interest (acc_n x) 0).
Example C66_interest_ex :
  (* no route: to the faces that are not local *)
  st_holds ex_learner (ex_faces ++ [sl_ask 257 (acc_n 3) 1 false]) (fun s => bool_decide (sl_seen s = [(259, 0); (258, 0)]%N)) = true /\
  (* a route *)
  st_holds ex_learner (st_evs ++ [sl_ask 256 (acc_n 3) 1 false]) (fun s => bool_decide (sl_seen s = [(258, 1); (257, 1)]%N)) = true /\
  st_holds ex_learner (st_evs ++ [sl_ask 257 (acc_n 3) 1 true]) (fun s => bool_decide (sl_seen s = [(258, 1)]%N)) = true /\
  st_holds ex_learner (ex_faces ++ [sl_ask 257 (acc_n 3) 1 true]) (fun s => bool_decide (sl_seen s = [(257, 10150)]%N)) = true /\
  st_holds ex_learner st_evs (fun s => reachesb s 256 (Interest (acc_n 3) false false 1 4000 None [] None None false)) = true.
Proof. by vm_compute. Qed.
Example C66_data_ex :
  (* to a discovery Interest: the announcement is handed over *)
  st_holds ex_learner (ex_faces ++ [sl_ask 257 (acc_n 3) 1 false; EvData 258 (sl_reply (acc_n 3) 7005)])
    (fun s => bool_decide (sl_seen s = [(259, 0); (258, 0); (257, 7105)]%N /\ fw_priv s = [(2%N, [7; 258; 600000]%Z)])) = true /\
  (* to a non-discovery Interest *)
  st_holds ex_learner (st_evs ++ [sl_ask 257 (acc_n 3) 1 true; EvData 258 (sl_reply (acc_n 3) 5)])
    (fun s => bool_decide (sl_seen s = [(258, 1); (257, 105)]%N /\ fw_priv s = [])) = true /\
  (* but downstream asked with a discovery Interest: an announcement is looked for ... *)
  st_holds ex_learner (st_evs ++ [sl_ask 257 (acc_n 3) 1 false; EvData 258 (sl_reply (acc_n 3) 5)])
    (fun s => bool_decide (sl_seen s = [(258, 1)]%N /\ fw_priv s = [(1%N, [2%Z])])) = true /\
  (* ... and found, in time ... *)
  st_holds ex_learner (st_evs ++ [sl_ask 257 (acc_n 3) 1 false; EvData 258 (sl_reply (acc_n 3) 5); ms 999; EvAsync [] [2; 9]%Z (sl_key 3)])
    (fun s => bool_decide (sl_seen s = [(258, 1); (257, 9105)]%N)) = true /\
  (* ... or too late *)
  st_holds ex_learner (st_evs ++ [sl_ask 257 (acc_n 3) 1 false; EvData 258 (sl_reply (acc_n 3) 5); ms 1000; EvPitTimer (sl_key 3); EvAsync [] [2; 9]%Z (sl_key 3)])
    (fun s => bool_decide (sl_seen s = [(258, 1)]%N)) = true /\
  (* all consumers are local *)
  st_holds ex_learner (st_evs ++ [sl_ask 256 (acc_n 3) 1 false; EvData 258 (sl_reply (acc_n 3) 5)])
    (fun s => bool_decide (sl_seen s = [(258, 1); (257, 1); (256, 105)]%N /\ fw_priv s = [])) = true.
Proof. by vm_compute. Qed.
Example C66_nack_ex :
  st_holds ex_learner (st_evs ++ [sl_ask 257 (acc_n 3) 1 true; EvNack 258 (Interest (acc_n 3) false false 1 4000 None [] None None true) 150])
    (fun s => bool_decide (sl_seen s = [(258, 1); (257, 10150)]%N /\ fw_priv s = [(3%N, [2; 258; 0]%Z)])) = true /\
  st_holds ex_learner (st_evs ++ [sl_ask 257 (acc_n 3) 1 true; EvNack 258 (Interest (acc_n 3) false false 1 4000 None [] None None true) 50])
    (fun s => bool_decide (sl_seen s = [(258, 1)]%N /\ fw_priv s = [])) = true.
Proof. by vm_compute. Qed.

(** ** What is false
    A Nack NoRoute that answers a discovery Interest sent to all faces, as there is no route: an assertion fails *)
Theorem C66_nack_refuted : let ev := EvNack 258 (Interest (acc_n 3) false false 1 4000 None [] None None false) 150 in exists s, st_reachable ex_learner s /\ ev_ok s ev /\
  fw_step isort ex_create name_eqb ex_hash ex_rand ex_order (fun _ => ex_learner) s ev = None.
Proof.
  intros ev. set (evs := ex_faces ++ [sl_ask 257 (acc_n 3) 1 false]).
  assert (H : st_holds ex_learner evs (fun s => ev_okb s ev && match fw_step isort ex_create name_eqb ex_hash ex_rand ex_order (fun _ => ex_learner) s ev with None => true | Some _ => false end) = true) by (by vm_compute).
  unfold st_holds in H. destruct (st_after ex_learner evs) as [s|] eqn:E; [|done]. apply andb_prop in H as [H1 H2]. exists s. split; [by eapply ex_reach|]. split; [by apply ev_okb_ok|]. by destruct (fw_step _ _ _ _ _ _ _ _ _).
Qed.
(** It does not leave returning Data to the forwarder's rules: Data from a face the Interest was not sent to reaches nobody, though
    it enters the Content Store and the PIT entry counts as satisfied *)
Theorem C66_data_refuted : ~ forall s s' f d g r k, st_reachable ex_learner s -> ev_ok s (EvData f d) -> fw_step isort ex_create name_eqb ex_hash ex_rand ex_order (fun _ => ex_learner) s (EvData f d) = Some s' ->
  in_turn s f k g r -> satisfies k d -> ~ localhost (d_name d) -> exists tok, Tx_data g d tok ∈ fw_log s'.
Proof.
  intros Hall. set (evs := st_evs ++ [sl_ask 257 (acc_n 3) 1 true]). set (d := sl_reply (acc_n 3) 5).
  set (liveb := fun s => match pit_at (fw_t s) (sl_key 3) with Some e => match find_in 257 (pe_in e) with Some r => (now (fw_t s) <? fr_expiry (ir_rec r))%Z | None => false end | None => false end).
  assert (H : st_holds ex_learner evs (fun s => ev_okb s (EvData 259 d) && liveb s && match fw_step isort ex_create name_eqb ex_hash ex_rand ex_order (fun _ => ex_learner) s (EvData 259 d) with
    None => false | Some s' => forallb (fun x => match x with Tx_data _ _ _ => false | _ => true end) (fw_log s') end) = true) by (by vm_compute).
  unfold st_holds in H. destruct (st_after ex_learner evs) as [s|] eqn:E; [|done]. apply andb_prop in H as [[H1 H2]%andb_prop H3]. destruct (fw_step _ _ _ _ _ _ _ _ _) as [s'|] eqn:Es; [|done].
  unfold liveb in H2. destruct (pit_at (fw_t s) (sl_key 3)) as [e|] eqn:He; [|done]. destruct (find_in 257 (pe_in e)) as [r|] eqn:Er; [|done]. apply Z.ltb_lt in H2. apply find_in_Some in Er as [Er1 Er2].
  destruct (Hall s s' 259%N d 257%N r (sl_key 3)) as [tok Ht]; [by eapply ex_reach|by apply ev_okb_ok|done| |by vm_compute|by intros Hx%is_localhost_spec|].
  - split; [|done]. split; [exists e; exact (conj He (conj Er1 Er2))|exact H2].
  - rewrite forallb_forall in H3. apply elem_of_list_In in Ht. by specialize (H3 _ Ht).
Qed.
(** If no announcement is found the Data that was held back reaches nobody *)
Theorem C66_lost_refuted : exists s s', st_reachable ex_learner s /\ ev_ok s (EvPitTimer (sl_key 3)) /\
  fw_step isort ex_create name_eqb ex_hash ex_rand ex_order (fun _ => ex_learner) s (EvPitTimer (sl_key 3)) = Some s' /\
  waiting s (sl_key 3) 2 /\ (exists g r, live s (sl_key 3) g r) /\ pit_at (fw_t s') (sl_key 3) = None /\ forall g d tok, Tx_data g d tok ∉ fw_log s'.
Proof.
  set (evs := st_evs ++ [sl_ask 257 (acc_n 3) 1 false; EvData 258 (sl_reply (acc_n 3) 5); ms 1000]). set (ev := EvPitTimer (sl_key 3)).
  set (liveb := fun s => match pit_at (fw_t s) (sl_key 3) with Some e => match find_in 257 (pe_in e) with Some r => (now (fw_t s) <? fr_expiry (ir_rec r))%Z | None => false end && bool_decide (pe_info e = [(1042%N, [2%Z])]) | None => false end).
  assert (H : st_holds ex_learner evs (fun s => ev_okb s ev && liveb s && match fw_step isort ex_create name_eqb ex_hash ex_rand ex_order (fun _ => ex_learner) s ev with
    None => false | Some s' => match pit_at (fw_t s') (sl_key 3) with None => true | _ => false end && forallb (fun x => match x with Tx_data _ _ _ => false | _ => true end) (fw_log s') end) = true) by (by vm_compute).
  unfold st_holds in H. destruct (st_after ex_learner evs) as [s|] eqn:E; [|done]. apply andb_prop in H as [[H1 H2]%andb_prop H3]. destruct (fw_step _ _ _ _ _ _ _ _ _) as [s'|] eqn:Es; [|done]. apply andb_prop in H3 as [H3 H4].
  unfold liveb in H2. destruct (pit_at (fw_t s) (sl_key 3)) as [e|] eqn:He; [|done]. apply andb_prop in H2 as [H2 H5%bool_decide_eq_true_1]. destruct (find_in 257 (pe_in e)) as [r|] eqn:Er; [|done]. apply Z.ltb_lt in H2. apply find_in_Some in Er as [Er1 Er2].
  exists s, s'. split; [by eapply ex_reach|]. split; [by apply ev_okb_ok|]. split; [exact Es|]. split; [|split; [|split]].
  - exists [2%Z]. split; [|left]. unfold info_of. rewrite He, H5. exists [], []. split; [done|constructor].
  - exists 257%N, r. split; [exists e; exact (conj He (conj Er1 Er2))|exact H2].
  - destruct (pit_at (fw_t s') (sl_key 3)); [discriminate H3|reflexivity].
  - intros g d tok Ht%elem_of_list_In. rewrite forallb_forall in H4. discriminate (H4 _ Ht).
Qed.
Print Assumptions C66_interest.
Print Assumptions C66_data.
Print Assumptions C66_found.
Print Assumptions C66_nack.
Print Assumptions C66_loop.
Print Assumptions C24_self_learning.
Print Assumptions C66_nack_refuted.
Print Assumptions C66_data_refuted.
Print Assumptions C66_lost_refuted.
