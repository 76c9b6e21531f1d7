(** C37: the multicast strategy; C39: Nacks, as part of the forwarder. *)
From stdpp Require Import gmap.
From Verif Require Import Lib Name_Model Name_Proof Packet_Model Nt_Model Nt_Spec Tree_Model Tree_Proof Tab_Model Tab_Spec Tab_At Tab_Fib Tab_Pit Tab_Pit2 Tab_Sc Tab_Run Tab_Main Fw_Model Fw_Spec Fw_Inv Fw_Case Fw_Case2 Fw_Case3 Fw_Hist Fw_Acc Fw_Step Fw_Out Fw_Main Fw_Data Fw_Ex FwFace_Props St_Model St_Retx St_Spec St_Dec St_Run St_At St_Best St_Multi St_Nack StBest_Props.
From Verif Require Cs_Model Cs_Spec Cs_Main Dnl_Model.

(** a nexthop's suppression interval, before ([s]) and after ([s']) an Interest that was sent to it or not *)
Definition interval_moved (c : retx_cfg) (s s' : fw) (k : pit_key) (g : N) (was_sent : Prop) : Prop :=
  (forall r, out_record_of s k g r -> exists r' iv, out_record_of s' k g r' /\ interval_now c (fr_info (or_rec r)) iv /\
     (was_sent -> fr_renewed (or_rec r') = now (fw_t s) /\ exists iv', grow c iv = Some iv' /\ stored_interval (fr_info (or_rec r')) (Some iv')) /\
     (~ was_sent -> fr_renewed (or_rec r') = fr_renewed (or_rec r) /\ stored_interval (fr_info (or_rec r')) (Some iv))) /\
  ((forall r, ~ out_record_of s k g r) -> forall r', out_record_of s' k g r' -> was_sent /\ fr_renewed (or_rec r') = now (fw_t s) /\ fr_info (or_rec r') = []).

Section props.
  Variable sort_nexthops : list nexthop -> list nexthop.
  Variable create_strategy : name -> create_result.
  Variable same_type : name -> name -> bool.
  Variable make_entry : name -> N -> Dnl_Model.fingerprint.
  Variable rand : nat -> nat.
  Variable face_order : list N -> list N.
  Variable strategies : name -> strategy.
  Notation step := (fw_step sort_nexthops create_strategy same_type make_entry rand face_order strategies).
  Notation reachable := (fw_reachable sort_nexthops create_strategy same_type make_entry rand face_order strategies).
  Hypothesis W : world_ok sort_nexthops same_type face_order.
  Notation inv_of R := (proj1 (reachable_inv _ _ _ _ _ _ _ W _ R)).

  (** an Interest goes to all the nexthops it may go to where it is not suppressed, once to each, and to
      no other face; nothing else is sent *)
  Theorem C37_forward s f i s' inst c : reachable s -> reaches make_entry s f i inst -> strategies inst = multicast c ->
    step s (EvInterest f i) = Some s' ->
    exists hint l j tx, hint_for s i hint /\ nexthops_for s hint (i_name i) l /\
      one_hop i j /\ i_nonce j = i_nonce i /\ i_token j = None /\
      added s s' (tx ++ [Rx_interest f i]) /\ NoDup tx /\
      (forall x, x ∈ tx <-> exists h, x = Tx_interest (nh_face h) j /\ h ∈ l /\ may_go s f (i_name i) (nh_face h) /\
         ~ suppressed c s (key_of i) (nh_face h) /\ (i_hop j = Some 0%N -> local_face s (nh_face h))) /\
      (forall h, h ∈ l -> interval_moved c s s' (key_of i) (nh_face h) (Tx_interest (nh_face h) j ∈ tx)).
  Proof.
    intros Hr (Ho & Ht & Hnh & Hc & p & Hg) Hst H. destruct (at_strategy _ _ _ _ _ _ _ W s f i s' p inst Hr Ho H Ht Hnh Hc Hg) as (i3 & e & s3 & R & Hrun).
    rewrite Hst in Hrun. simpl in Hrun. unfold multicast_interest in Hrun. apply run_with in Hrun as (e0 & He0 & Hrun). rewrite (rd_at _ _ _ _ _ _ R) in He0. injection He0 as <-.
    pose proof (rd_inv _ _ _ _ _ _ R) as I3. pose proof (rd_at _ _ _ _ _ _ R) as Hat.
    destruct (lookup_fib s3 e) as [fe|] eqn:El; [|done].
    destruct (lookup_nexthops s3 e fe I3 El) as [Hn Hok]. apply (nexthops_ext s) in Hn; [|apply R]. rewrite (rd_name _ _ _ _ _ _ R) in Hn.
    apply (multi_loop _ _ _ _ _ _ ltac:(rewrite (rd_life _ _ _ _ _ _ R); apply Ho) _ _ _ e) in Hrun as (e1 & tx & D & Hnd & Hoth & Hx & Hgo & Htu); [|done|done|apply Hok].
    assert (Hmg : forall h, next_hop_eligible (fw_faces s3) f i3 h e None = true <-> may_go s f (i_name i) (nh_face h)) by (intros h; apply (ready_may_go s); [apply Ho|done]).
    assert (Hrec : forall g r, find_out g (pe_out e) = Some r <-> out_record_of s (key_of i) g r).
    { intros g r. destruct (entry_ok _ _ _ I3 Hat) as [[_ N2 _ _] _]. rewrite outs_record, <- (rd_out _ _ _ _ _ _ R). split; [apply find_out_Some|]. intros [A <-]. by apply elem_find_out. }
    assert (Hrec' : forall g r, find_out g (pe_out e1) = Some r <-> out_record_of s' (key_of i) g r).
    { intros g r. destruct (entry_ok _ _ _ (dd_inv _ _ _ _ _ _ D) (did_after _ _ _ _ _ _ D)) as [[_ N2 _ _] _]. rewrite outs_record. unfold outs_of. rewrite (did_after _ _ _ _ _ _ D). split; [apply find_out_Some|]. intros [A <-]. by apply elem_find_out. }
    assert (Hsup : forall g, suppressed c s3 (key_of i) g <-> suppressed c s (key_of i) g).
    { intros g. rewrite (suppressed_find c (key_of i) s3 e g I3 Hat). unfold suppressed. rewrite (rd_now _ _ _ _ _ _ R). split; intros (r & iv & A & B); exists r, iv; (split; [by apply Hrec|done]). }
    exists (i_hint (pe_interest e)), (fe_nexthops fe), (without_token i3), tx.
    split; [apply R|]. split; [done|]. split; [exact (rd_hop _ _ _ _ _ _ R)|]. split; [exact (rd_nonce _ _ _ _ _ _ R)|]. split; [done|].
    split; [unfold added; rewrite (dd_log _ _ _ _ _ _ D), (rd_log _ _ _ _ _ _ R); by rewrite <- app_assoc|]. split; [done|]. split.
    - assert (Hgoes : forall h, goes c i3 f (key_of i) s3 e h <-> may_go s f (i_name i) (nh_face h) /\ ~ suppressed c s (key_of i) (nh_face h) /\ (i_hop (without_token i3) = Some 0%N -> local_face s (nh_face h))).
      { intros h. unfold goes. rewrite Hmg, Hsup. unfold local_face. by rewrite (rd_faces _ _ _ _ _ _ R). }
      intros x. split.
      + intros Hin. destruct (Hx x Hin) as (h & Hh & ->). exists h. split; [done|]. split; [done|]. by apply Hgoes, (Hgo h Hh).
      + intros (h & -> & Hh & Hy). by apply (Hgo h Hh), Hgoes.
    - intros h Hh. destruct (Htu h Hh) as (b & Hb & Hturn). unfold turned in Hturn. rewrite (rd_now _ _ _ _ _ _ R) in Hturn. split.
      + intros r Hr0%Hrec. rewrite Hr0 in Hturn. destruct Hturn as (r' & iv & Hr' & Hiv & Hcase). exists r', iv. split; [by apply Hrec'|]. split; [done|]. destruct b.
        * split; [done|]. intros Hno. by destruct Hno; apply Hb.
        * split; [|done]. intros Hyes. apply Hb in Hyes. done.
      + intros Hnone r' Hr'%Hrec'. destruct (find_out (nh_face h) (pe_out e)) as [r|] eqn:E; [apply Hrec in E; by destruct (Hnone r)|]. rewrite Hr' in Hturn. destruct Hturn as (-> & A & B). split; [by apply Hb|done].
  Qed.

  (** a new nexthop for a pending Interest: the PIT entry's Interest is sent to it if a downstream may send it
      there, and nothing else *)
  Theorem C37_newhop s k e nh s' : reachable s -> pit_at (fw_t s) k = Some e ->
    run rand face_order None k (multicast_newhop nh k) s = Some (s', tt) ->
    ((exists f r, in_record_of s k f r /\ face_exists s f /\ may_go s f (pk_name k) (nh_face nh)) ->
       exists tx, sent s (nh_face nh) (without_token (pe_interest e)) tx /\ added s s' tx) /\
    ((forall f r, in_record_of s k f r -> face_exists s f -> ~ may_go s f (pk_name k) (nh_face nh)) -> s' = s).
  Proof.
    intros Hr He H. pose proof (inv_of Hr) as I. apply run_with in H as (e0 & He0 & H). rewrite He in He0. injection He0 as <-.
    destruct (entry_ok _ _ _ I He) as [_ Hk]. assert (Hname : i_name (pe_interest e) = pk_name k) by (by rewrite <- Hk).
    set (p := fun r => next_hop_eligible (fw_faces s) (fr_face (ir_rec r)) (pe_interest e) nh e None) in H.
    assert (Hp : forall r, r ∈ pe_in e -> p r = true <-> may_go s (fr_face (ir_rec r)) (pk_name k) (nh_face nh)).
    { intros r Hr'. unfold p. rewrite <- Hname. apply eligible_may_go. by apply (iv_pit _ I k e). }
    destruct (List.find p (pe_in e)) as [r|] eqn:Ef.
    - apply List.find_some in Ef as [Hin Hpr]. apply elem_of_list_In in Hin. apply Hp in Hpr; [|done]. split.
      + intros _. apply bind_Some in H as (s1 & b & H1 & H). injection H as ->. unfold send_interest in H1. apply bind_Some in H1 as (s1 & i & H0 & H1). simpl in H0.
        apply bind_Some in H0 as (s2 & e2 & [-> He2]%entry_Some & [= <- <-]). rewrite He in He2. injection He2 as <-. unfold on_outgoing_interest in H1. apply bind_Some in H1 as (s1 & fc & [-> Hf]%face_of_Some & H1).
        unfold sent, added. change (i_hop (without_token (pe_interest e))) with (i_hop (pe_interest e)) in *.
        destruct (i_hop (pe_interest e)) as [h|] eqn:Eh; [destruct (N.eqb_spec h 0) as [->|Hh]|]; simpl in H1; [destruct (fc_local fc) eqn:El; simpl in H1|..].
        2: { apply bind_Some in H1 as (s2 & u & [= <- <-] & [= <- <-]). exists []. rewrite decide_True by done. split; [right; split; [by exists fc|done]|done]. }
        all: unfold bind, get, emit, count in H1; simpl in H1; destruct (upd_entry _ _ _) as [[s2 u]|] eqn:H2; [|done]; apply upd_entry_Some in H2 as (e2 & He2 & ->);
          injection H1 as <- <-; exists [Tx_interest (nh_face nh) (without_token (pe_interest e))]; (split; [|done]).
        * rewrite decide_True by done. left. split; [by exists fc|done].
        * rewrite decide_False by congruence. done.
        * by rewrite decide_False.
      + intros Hno. exfalso. apply (Hno (fr_face (ir_rec r)) r); [by exists e|by apply (iv_pit _ I k e)|done].
    - apply run_done in H. subst s'. split; [|done]. intros (f & r & (e' & He' & Hin & <-) & _ & Hm). exfalso. rewrite He in He'. injection He' as <-.
      apply Hp in Hm; [|done]. apply elem_of_list_In in Hin. by rewrite (List.find_none _ _ Ef _ Hin) in Hm.
  Qed.

  (** C39.  A Nack from face [f], for the Interest last sent there, of an entry whose strategy uses the standard processing.
      Which reason the Nacks that are sent carry: the least severe the upstreams have given *)
  Definition returns_nack (s s' : fw) (f : N) (i : interest) (reason : N) (tx : list io) : Prop := added s s' (tx ++ [Rx_nack f i reason]).
  Theorem C39_nack s f i reason s' inst order p : reachable s -> ev_ok s (EvNack f i reason) -> step s (EvNack f i reason) = Some s' ->
    p2p_face s f -> (exists o, out_record_of s (key_of i) f o /\ fr_nonce (or_rec o) = i_nonce i) ->
    governs (fun m => sc_at (fw_t s) m) (i_name i) p inst -> (forall l, order l ≡ₚ l) -> st_nack (strategies inst) = (fun _ _ _ k => process_nack order k) ->
    exists least, least_severe (answered s (key_of i) f reason) least /\
      (* every upstream has answered: every downstream is told *)
      ((forall g, ~ unanswered s (key_of i) f g) -> exists tx, NoDup tx /\ returns_nack s s' f i reason tx /\
         forall x, x ∈ tx <-> exists g r, in_record_of s (key_of i) g r /\ p2p_face s g /\ x = Tx_nack g (ir_interest r) least) /\
      (* the only one that has not is also a downstream: it is told *)
      (forall g r, unanswered s (key_of i) f g -> (forall g', unanswered s (key_of i) f g' -> g' = g) -> in_record_of s (key_of i) g r ->
         (p2p_face s g -> returns_nack s s' f i reason [Tx_nack g (ir_interest r) least]) /\ (~ p2p_face s g -> returns_nack s s' f i reason [])) /\
      (* otherwise nobody is *)
      (forall g, unanswered s (key_of i) f g -> (exists g', unanswered s (key_of i) f g' /\ g' <> g) \/ (forall r, ~ in_record_of s (key_of i) g r) ->
         returns_nack s s' f i reason []).
  Proof.
    intros Hr Ho H Hpf (o & Hor & Hno) Hgov Hord Hst. pose proof (inv_of Hr) as I. apply step_event in H. simpl in H. apply nack_cases in H as (fc & Hf & Hcase); [|done].
    destruct Hor as (e & He & Hoe & Hof). destruct (entry_ok _ _ _ I He) as [[N1 N2 _ _] Hk].
    assert (Hfo : find_out f (pe_out e) = Some o) by (rewrite <- Hof; by apply elem_find_out).
    destruct Hcase as [Hbad _|e' r s1 s2 q inst' _ He' Hr' Hn' W1 W2 Heff Hrun].
    { exfalso. destruct Hbad as [Hl|Hx]; [destruct Hpf as (fc' & ? & ?); congruence|by apply (Hx e o)]. }
    rewrite He in He'. injection He' as <-. rewrite Hfo in Hr'. injection Hr' as <-. set (e1 := nacked f (i_nonce i) reason e) in *.
    assert (D2 : exists e2, did (key_of i) e e2 [] (got (Rx_nack f i reason) inc_in_nacks s) s2 /\ pe_out e2 = pe_out e1 /\ pe_in e2 = pe_in e).
    { destruct (has_pending_out (now (fw_t s)) e1); [subst s2; exists e1; split; [by apply wrote_did|done]|]. exists (set_timer (now (fw_t s)) e1). split; [|done]. eapply (did_trans _ _ _ _ [] []); by apply wrote_did. }
    destruct D2 as (e2 & D2 & Eo & Ei). pose proof (dd_core _ _ _ _ _ _ D2) as C2.
    assert (inst' = inst) as ->.
    { apply effective_ok in Heff as [E1 E2]; [|apply (iv_tab _ (dd_inv _ _ _ _ _ _ D2))]. destruct Hgov as [G1 G2].
      assert (q = p) as ->; [|rewrite (sc_sc _ _ C2) in E2; change (sc_at (fw_t s) p = Some inst') in E2; rewrite G2 in E2; by injection E2]. eapply longest_defined_fun; [|exact G1]. eapply (longest_ext (fun m => sc_at (fw_t s2) m)); [|exact E1]. intros m. by rewrite (sc_sc _ _ C2). }
    rewrite Hst in Hrun. unfold process_nack in Hrun. apply (run_with _ _ _ (key_of i) (fun s e => _)) in Hrun as (e2' & He2 & Hrun). rewrite (did_after _ _ _ _ _ _ D2) in He2. injection He2 as <-.
    destruct (out_nack_ok f (i_nonce i) reason (pe_out e)) as [Hfaces Hfind].
    assert (Hrec : forall g r, r ∈ pe_out e2 /\ fr_face (or_rec r) = g <-> find_out g (out_nack f (i_nonce i) reason (pe_out e)) = Some r).
    { intros g r. rewrite Eo. unfold e1. simpl pe_out. split; [|apply find_out_Some]. intros [A <-]. apply elem_find_out; [by rewrite Hfaces|done]. }
    assert (Hun : forall g, unanswered s (key_of i) f g <-> exists r, r ∈ pe_out e2 /\ fr_face (or_rec r) = g /\ or_nack r = None).
    { intros g. unfold unanswered, out_record_of. split.
      - intros (Hg & r & (e' & He' & Hin & Hgr) & Hnone). rewrite He in He'. injection He' as <-. exists r. assert (Hx : r ∈ pe_out e2 /\ fr_face (or_rec r) = g); [|by destruct Hx].
        apply Hrec. rewrite Hfind, decide_False by done. rewrite <- Hgr. by apply elem_find_out.
      - intros (r & Hin & Hgr & Hnone). assert (Hx : find_out g (out_nack f (i_nonce i) reason (pe_out e)) = Some r) by (apply Hrec; done). rewrite Hfind in Hx. case_decide as Hg.
        + rewrite Hfo in Hx. rewrite Hno, N.eqb_refl in Hx. injection Hx as <-. done.
        + split; [done|]. exists r. split; [|done]. exists e. apply find_out_Some in Hx. done. }
    assert (Han : forall x, answered s (key_of i) f reason x <-> exists r, r ∈ pe_out e2 /\ or_nack r = Some x).
    { intros x. unfold answered, out_record_of. split.
      - intros [->|(g & r & Hg & (e' & He' & Hin & Hgr) & Hx)].
        + exists (OutRecord (or_rec o) (Some reason)). split; [|done]. apply (Hrec f). rewrite Hfind, decide_True, Hfo by done. by rewrite Hno, N.eqb_refl.
        + rewrite He in He'. injection He' as <-. exists r. split; [|done]. apply (Hrec g). rewrite Hfind, decide_False by done. rewrite <- Hgr. by apply elem_find_out.
      - intros (r & Hin & Hx). assert (Hy : find_out (fr_face (or_rec r)) (out_nack f (i_nonce i) reason (pe_out e)) = Some r) by (by apply Hrec). rewrite Hfind in Hy. case_decide as Hg.
        + rewrite Hfo in Hy. rewrite Hno, N.eqb_refl in Hy. injection Hy as <-. simpl in Hx. injection Hx as <-. by left.
        + right. exists (fr_face (or_rec r)), r. split; [done|]. split; [|done]. exists e. apply find_out_Some in Hy as [? _]. done. }
    destruct (nack_scan_spec (pe_out e2) 0 None NACK_NONE (fun _ => False)) as (n & last & least & Hscan & Hleast & Hcnt); [right; done|]. rewrite Hscan in Hrun.
    exists least. split; [eapply severe_ext; [|exact Hleast]; intros x; rewrite Han; tauto|].
    assert (Hin : forall g r, find_in g (pe_in e2) = Some r <-> in_record_of s (key_of i) g r).
    { intros g r. rewrite Ei. unfold in_record_of. split; [intros Hx; apply find_in_Some in Hx; by exists e|]. intros (e' & He' & A & <-). rewrite He in He'. injection He' as <-. by apply elem_find_in. }
    assert (Hp2 : forall g, p2p_face s2 g <-> p2p_face s g) by (intros g; unfold p2p_face; by rewrite (sc_faces _ _ C2)).
    assert (Hret : forall e3 tx, did (key_of i) e2 e3 tx s2 s' -> returns_nack s s' f i reason tx) by (intros e3 tx D3; unfold returns_nack, added; rewrite (dd_log _ _ _ _ _ _ D3), (dd_log _ _ _ _ _ _ D2), <- app_assoc; done).
    pose proof (dd_inv _ _ _ _ _ _ D2) as I2. pose proof (did_after _ _ _ _ _ _ D2) as Hat.
    destruct Hcnt as [(-> & -> & Hall)|(l1 & r & l2 & El & Hrn & -> & Hlt & Hl2 & Hone & Hmany)].
    - simpl in Hrun. assert (Hnone : forall g, ~ unanswered s (key_of i) f g) by (intros g (r & A & _ & B)%Hun; by apply (Hall r)).
      split; [|split; [intros g r Hg; by apply Hnone in Hg|intros g Hg; by apply Hnone in Hg]]. intros _. unfold send_nacks in Hrun.
      assert (Hnd : NoDup (order (map (fun r => fr_face (ir_rec r)) (pe_in e2)))) by (rewrite Hord, Ei; exact N1).
      eapply (run_nack_each _ _ _ _ _ _ _ _ e2) in Hrun as (e3 & tx & D3 & Hn3 & Hx3); [|done|done|done]. exists tx. split; [done|]. split; [by eapply Hret|]. intros x. rewrite Hx3. split.
      + intros (g & r & _ & A & B & ->). exists g, r. split; [by apply Hin|]. split; [by apply Hp2|done].
      + intros (g & r & A%Hin & B & ->). exists g, r. split; [|split; [by apply Hp2|done]]. rewrite Hord. apply find_in_Some in A as [A <-]. by apply (elem_of_list_fmap_1 (fun r => fr_face (ir_rec r))).
    - assert (Hg0 : unanswered s (key_of i) f (fr_face (or_rec r))) by (apply Hun; exists r; split; [rewrite El; apply elem_of_app; right; left|done]).
      split; [intros Hnone; by apply Hnone in Hg0|]. destruct (Nat.eqb_spec n 1) as [->|Hn1].
      + assert (Honly : forall g, unanswered s (key_of i) f g -> g = fr_face (or_rec r)).
        { intros g (r' & A & <- & B)%Hun. rewrite El in A. apply elem_of_app in A as [A|[->|A]%elem_of_cons]; [by apply Hone in A|done|by apply Hl2 in A]. }
        simpl in Hrun. split.
        * intros g rr Hg _ Hrr%Hin. rewrite (Honly g Hg) in *. rewrite Hrr in Hrun. eapply run_nack in Hrun as (e3 & e4 & tx & s4 & D3 & Hrun & Hcase); [|done|by exists e2]. apply run_done in Hrun. subst s4.
          pose proof (did_before _ _ _ _ _ _ D3) as E3. rewrite Hat in E3. injection E3 as <-. rewrite Hp2, Hrr in Hcase.
          destruct Hcase as [(r' & A & [= <-] & _ & ->)|([A|?] & _ & ->)]; [|split; [done|intros _; by eapply Hret]|done]. split; [intros _; by eapply Hret|intros Hx; destruct Hx; by apply Hp2].
        * intros g Hg [(g' & Hg' & Hd)|Hnin]; [apply Honly in Hg'; apply Honly in Hg; congruence|]. rewrite (Honly g Hg) in *. destruct (find_in (fr_face (or_rec r)) (pe_in e2)) as [rr|] eqn:Ef; [apply Hin in Ef; by apply Hnin in Ef|].
          apply run_done in Hrun. subst s'. apply (Hret e2). by apply did_refl.
      + rewrite (proj2 (Nat.ltb_lt 0 n)) in Hrun by lia. apply run_done in Hrun. subst s'. assert (Hnil : returns_nack s s2 f i reason []) by (apply (Hret e2); by apply did_refl).
        split; [|done]. intros g rr Hg Huniq _. exfalso. destruct (Hmany Hn1) as (r' & A & B).
        assert (Hg' : unanswered s (key_of i) f (fr_face (or_rec r'))) by (apply Hun; exists r'; split; [rewrite El; apply elem_of_app; by left|done]).
        assert (Hnd : NoDup (rec_faces_out (pe_out e2))) by (rewrite Eo; unfold e1; simpl pe_out; rewrite Hfaces; done). rewrite El in Hnd. unfold rec_faces_out in Hnd. rewrite fmap_app in Hnd. apply NoDup_app in Hnd as (_ & Hdis & _).
        apply (Hdis (fr_face (or_rec r'))); [by apply (elem_of_list_fmap_1 (fun r => fr_face (or_rec r)))|]. rewrite (Huniq _ Hg'), <- (Huniq _ Hg0). left.
  Qed.
  (** which strategies: best-route and random; multicast sends no Nacks in return *)
  Theorem C39_strategies order c : st_nack (best_route order c) = (fun _ _ _ k => process_nack order k) /\ st_nack (random_strategy order) = (fun _ _ _ k => process_nack order k).
  Proof. done. Qed.
  Theorem C39_multicast s f i reason s' inst c p : reachable s -> ev_ok s (EvNack f i reason) -> step s (EvNack f i reason) = Some s' ->
    governs (fun m => sc_at (fw_t s) m) (i_name i) p inst -> strategies inst = multicast c -> added s s' [Rx_nack f i reason].
  Proof.
    intros Hr Ho H Hgov Hst. pose proof (inv_of Hr) as I. apply step_event in H. simpl in H. apply nack_cases in H as (fc & Hf & Hcase); [|done].
    destruct Hcase as [Hbad ->|e r s1 s2 q inst' _ He' Hr' Hn' W1 W2 Heff Hrun]; [done|]. set (e1 := nacked f (i_nonce i) reason e) in *.
    assert (D2 : exists e2, did (key_of i) e e2 [] (got (Rx_nack f i reason) inc_in_nacks s) s2).
    { destruct (has_pending_out (now (fw_t s)) e1); [subst s2; exists e1; by apply wrote_did|]. exists (set_timer (now (fw_t s)) e1). eapply (did_trans _ _ _ _ [] []); by apply wrote_did. }
    destruct D2 as (e2 & D2). pose proof (dd_core _ _ _ _ _ _ D2) as C2.
    assert (inst' = inst) as ->.
    { apply effective_ok in Heff as [E1 E2]; [|apply (iv_tab _ (dd_inv _ _ _ _ _ _ D2))]. destruct Hgov as [G1 G2].
      assert (q = p) as ->; [|rewrite (sc_sc _ _ C2) in E2; change (sc_at (fw_t s) p = Some inst') in E2; rewrite G2 in E2; by injection E2]. eapply longest_defined_fun; [|exact G1]. eapply (longest_ext (fun m => sc_at (fw_t s2) m)); [|exact E1]. intros m. by rewrite (sc_sc _ _ C2). }
    rewrite Hst in Hrun. apply run_done in Hrun. subst s'. unfold added. by rewrite (dd_log _ _ _ _ _ _ D2).
  Qed.
End props.
Print Assumptions C37_forward.
Print Assumptions C37_newhop.
Print Assumptions C39_nack.
Print Assumptions C39_multicast.
