(** What running a strategy's trigger does, call by call. *)
From stdpp Require Import gmap.
From Verif Require Import Lib Name_Model Name_Proof Packet_Model Nt_Model Nt_Spec Tree_Model Tree_Proof Tab_Model Tab_Spec Tab_At Tab_Fib Tab_Pit Tab_Sc Tab_Run Tab_Main Fw_Model Fw_Spec Fw_Inv Fw_Case Fw_Case2 Fw_Case3 Fw_Hist Fw_Acc Fw_Step Fw_Out Fw_Main Fw_Data Fw_Ex FwFace_Props St_Model St_Retx St_Spec St_Dec.
From Verif Require Cs_Model Cs_Spec Cs_Main Dnl_Model.

(** packets [l] went out, newest first, and PIT entry [k] changed from [e] to [e'] *)
Record did (k : pit_key) (e e' : pit_entry) (l : list io) (s s' : fw) : Prop := {
  dd_inv : Inv s';
  dd_core : same_core s s';
  dd_entry : entry_to k e e' s s';
  dd_log : fw_log s' = l ++ fw_log s;
}.
Lemma did_trans k e1 e2 e3 l1 l2 s1 s2 s3 : did k e1 e2 l1 s1 s2 -> did k e2 e3 l2 s2 s3 -> did k e1 e3 (l2 ++ l1) s1 s3.
Proof.
  intros [A1 A2 A3 A4] [B1 B2 B3 B4]. split; [done|by eapply same_core_trans|by eapply entry_to_trans|]. by rewrite B4, A4, app_assoc.
Qed.
Lemma did_refl k e s : Inv s -> pit_at (fw_t s) k = Some e -> did k e e [] s s.
Proof.
  intros I He. split; [done|apply same_core_refl| |done]. split; [done|]. intros k'. by case_decide; subst.
Qed.
Lemma did_before k e e' l s s' : did k e e' l s s' -> pit_at (fw_t s) k = Some e.
Proof. intros D. exact (proj1 (entry_to_at _ _ _ _ _ (dd_entry _ _ _ _ _ _ D))). Qed.
Lemma did_after k e e' l s s' : did k e e' l s s' -> pit_at (fw_t s') k = Some e'.
Proof. intros D. exact (proj2 (entry_to_at _ _ _ _ _ (dd_entry _ _ _ _ _ _ D))). Qed.
Lemma wrote_did k e e' s s' : wrote k e e' s s' -> did k e e' [] s s'.
Proof. intros []. by split. Qed.

Definition with_info (si : sinfo) (e : pit_entry) : pit_entry :=
  PitEntry (pe_interest e) (pe_in e) (pe_out e) (pe_satisfied e) (pe_fresh e) (pe_timer e) si.
Definition set_rec_info (g : N) (si : sinfo) (r : out_record) : out_record :=
  if (fr_face (or_rec r) =? g)%N then OutRecord (FaceRecord (fr_face (or_rec r)) (fr_nonce (or_rec r)) (fr_renewed (or_rec r)) (fr_expiry (or_rec r)) si) (or_nack r) else r.
Definition with_out_info (g : N) (si : sinfo) (e : pit_entry) : pit_entry := set_pe_out (map (set_rec_info g si) (pe_out e)) e.
Definition with_sent (g : N) (i : interest) (t : Z) (e : pit_entry) : pit_entry := set_pe_out (insert_or_update_out g i t (pe_out e)) e.
Definition without_in (f : N) (e : pit_entry) : pit_entry := set_pe_in (delete_in f (pe_in e)) e.

Lemma like_rec_info g si e : like e (with_out_info g si e).
Proof.
  assert (H : forall r, like_out r (set_rec_info g si r)) by (intros r; unfold set_rec_info; destruct (_ =? _)%N; by repeat split).
  split; try done; simpl.
  induction (pe_out e); simpl; constructor; done.
Qed.

Section run.
  Variable rand : nat -> nat.
  Variable face_order : list N -> list N.
  Notation run := (run rand face_order).

  Lemma run_with trig k q s s' : run trig k (with_entry k q) s = Some (s', tt) -> exists e, pit_at (fw_t s) k = Some e /\ run trig k (q s e) s = Some (s', tt).
  Proof.
    unfold with_entry. cbn [Fw_Model.run]. intros (s0 & s1 & [= <- <-] & H)%bind_Some. destruct (pit_get k (fw_t s)) as [e|] eqn:E; [by exists e|done].
  Qed.
  Lemma run_info trig k si q s s' : Inv s -> run trig k (PInfo si q) s = Some (s', tt) ->
    exists e s1, did k e (with_info si e) [] s s1 /\ run trig k q s1 = Some (s', tt).
  Proof.
    intros I (s1 & v & H0 & H)%bind_Some. eapply upd_step in H0 as [e H0]; [|done|done|..].
    - exists e, s1. split; [by apply wrote_did|done].
    - intros e _. by apply same_records_ok.
    - intros e _. by apply same_records_fine.
  Qed.
  Lemma run_out_info trig k g si q s s' : Inv s -> run trig k (POutInfo g si q) s = Some (s', tt) ->
    exists e s1, did k e (with_out_info g si e) [] s s1 /\ run trig k q s1 = Some (s', tt).
  Proof.
    intros I (s1 & v & H0 & H)%bind_Some. eapply upd_step in H0 as [e H0]; [|done|done|..].
    - exists e, s1. split; [by apply wrote_did|done].
    - intros e _. apply like_ok, like_rec_info.
    - intros e _. apply like_fine, like_rec_info.
  Qed.
  Lemma run_timer trig k ms q s s' : Inv s -> run trig k (PTimer ms q) s = Some (s', tt) ->
    exists e s1, did k e (set_timer (now (fw_t s) + ns_of_ms (Z.max ms 0)) e) [] s s1 /\ run trig k q s1 = Some (s', tt).
  Proof.
    intros I (s1 & v & H0 & H)%bind_Some. apply set_expiry_step in H0 as [e H0]; [|done]. exists e, s1. split; [by apply wrote_did|done].
  Qed.
  Lemma run_nack trig k reason f q s s' : Inv s -> is_Some (pit_at (fw_t s) k) -> run trig k (PNack reason f q) s = Some (s', tt) ->
    exists e e1 l s1, did k e e1 l s s1 /\ run trig k q s1 = Some (s', tt) /\
      ((exists r, p2p_face s f /\ find_in f (pe_in e) = Some r /\ e1 = without_in f e /\ l = [Tx_nack f (ir_interest r) reason]) \/
       ((~ p2p_face s f \/ find_in f (pe_in e) = None) /\ e1 = e /\ l = [])).
  Proof.
    intros I [e He] (s1 & v & H0 & H)%bind_Some. pose proof H0 as H1. apply (a_nack None) in H1; [|done]. exists e. unfold on_outgoing_nack in H0. apply bind_Some in H0 as (s0 & s2 & [= <- <-] & H0).
    destruct (fw_faces s !! f) as [fc|] eqn:Ef.
    2: { injection H0 as <- <-. exists e, [], s. split; [by apply did_refl|]. split; [done|]. right. split; [|done]. left. intros (fc & ? & _). congruence. }
    apply bind_Some in H0 as (s2 & e2 & [-> He2]%entry_Some & H0). rewrite He in He2. injection He2 as <-. destruct (find_in f (pe_in e)) as [r|] eqn:Er.
    2: { injection H0 as <- <-. exists e, [], s. split; [by apply did_refl|]. split; [done|]. right. split; [by right|done]. }
    destruct (is_p2p fc) eqn:Ep; simpl in H0.
    2: { injection H0 as <- <-. exists e, [], s. split; [by apply did_refl|]. split; [done|]. right. split; [|done]. left. intros (fc' & Hfc & Hl). rewrite Ef in Hfc. injection Hfc as <-. unfold is_p2p in Ep. by rewrite Hl in Ep. }
    apply bind_Some in H0 as (s2 & u & H2 & H0). apply upd_entry_Some in H2 as (e2 & He2 & ->). rewrite He in He2. injection He2 as <-.
    repeat (apply bind_Some in H0 as (? & ? & Hx & H0); injection Hx as <- <-). injection H0 as <- <-.
    destruct (pit_upd_core k (without_in f) s e I He) as (C1 & C2 & C3 & C4); [done|apply pe_ok_del_in|].
    exists (without_in f e), [Tx_nack f (ir_interest r) reason]. eexists. split; [|split; [exact H|]].
    - split; [|by apply same_core_io|exact C3|done]. destruct H1 as [H1|H1]; [exfalso; apply (f_equal fw_log) in H1; simpl in H1; by apply (f_equal length), Nat.neq_succ_diag_l in H1|]. by eapply satom_inv.
    - left. exists r. split; [|done]. exists fc. split; [done|]. unfold is_p2p in Ep. by destruct (fc_link fc).
  Qed.
  (** sending the Interest that triggered *)
  Lemma run_interest i k g q s s' : Inv s -> (0 <= i_lifetime i)%Z -> is_Some (pit_at (fw_t s) k) -> run (Some i) k (PInterest Trigger None false g q) s = Some (s', tt) ->
    exists e e1 l s1 b, did k e e1 l s s1 /\ run (Some i) k (q b) s1 = Some (s', tt) /\ face_exists s g /\ sent s g (without_token i) l /\
      ((b = true /\ e1 = with_sent g (without_token i) (now (fw_t s)) e /\ l = [Tx_interest g (without_token i)]) \/ (b = false /\ e1 = e /\ l = [])).
  Proof.
    intros I Hl [e He] (s1 & b & H0 & H)%bind_Some. pose proof H0 as H1. eapply a_interest in H1; [|done|by intros j [= <-]]. unfold send_interest in H0.
    apply bind_Some in H0 as (s2 & i' & [= <- <-] & H0). unfold on_outgoing_interest in H0. apply bind_Some in H0 as (s2 & fc & [-> Hf]%face_of_Some & H0).
    exists e. change (i_hop (without_token i)) with (i_hop i) in H0. destruct (i_hop i) as [h|] eqn:Eh; [destruct (N.eqb_spec h 0) as [->|Hh]|]; simpl in H0; [destruct (fc_local fc) eqn:El; simpl in H0|..].
    2: { apply bind_Some in H0 as (s2 & u & [= <- <-] & [= <- <-]). exists e, []. eexists. exists false. split; [|split; [exact H|]].
         - split; [by apply Inv_cnt|by split| |done]. split; [done|]. intros k'. simpl. by case_decide; subst.
         - split; [by exists fc|]. split; [|by right]. unfold sent. rewrite decide_True by done. right. split; [by exists fc|done]. }
    all: apply bind_Some in H0 as (s2 & u & [= <- <-] & H0); apply bind_Some in H0 as (s2 & u & H2 & H0); apply upd_entry_Some in H2 as (e2 & He2 & ->); rewrite He in He2; injection He2 as <-;
      repeat (apply bind_Some in H0 as (? & ? & Hx & H0); injection Hx as <- <-); injection H0 as <- <-;
      destruct (pit_upd_core k (with_sent g (without_token i) (now (fw_t s))) s e I He) as (C1 & C2 & C3 & C4); [done|by apply pe_ok_out|];
      exists (with_sent g (without_token i) (now (fw_t s)) e), [Tx_interest g (without_token i)]; eexists; exists true; (split; [|split; [exact H|]]);
      [split; [by eapply satom_inv|by apply same_core_io|exact C3|done]|]; (split; [by exists fc|]); (split; [|by left]); unfold sent; change (i_hop (without_token i)) with (i_hop i); rewrite Eh.
    - rewrite decide_True by done. left. split; [by exists fc|done].
    - rewrite decide_False by congruence. done.
    - by rewrite decide_False.
  Qed.
  Lemma run_done trig k s s' : run trig k PDone s = Some (s', tt) -> s' = s.
  Proof. by intros [= ->]. Qed.
End run.

(** ** Which nexthops are eligible *)
Lemma eligible_may_go s f i nh e : face_exists s f -> next_hop_eligible (fw_faces s) f i nh e None = true <-> may_go s f (i_name i) (nh_face nh).
Proof.
  intros [infc Hf]. unfold next_hop_eligible, may_go. rewrite Hf. destruct (fw_faces s !! nh_face nh) as [outfc|] eqn:Eg.
  2: { split; [done|]. intros [[? ?] _]. congruence. }
  assert (Hsc : would_violate_scope infc i outfc = false <-> scope_ok (fw_faces s) f (i_name i) (nh_face nh)).
  { unfold would_violate_scope, scope_ok. rewrite <- is_localhost_spec, <- is_localhop_spec.
    assert (Hg : (exists fc, fw_faces s !! nh_face nh = Some fc /\ fc_local fc = true) <-> fc_local outfc = true).
    { rewrite Eg. split; [intros (fc & [= <-] & ?); done|by exists outfc]. }
    assert (Hi : (exists fc, fw_faces s !! f = Some fc /\ fc_local fc = true) <-> fc_local infc = true).
    { rewrite Hf. split; [intros (fc & [= <-] & ?); done|by exists infc]. }
    rewrite Hg, Hi. destruct (fc_local outfc), (is_localhost (i_name i)), (is_localhop (i_name i)), (fc_local infc); simpl; intuition congruence. }
  assert (Had : (nh_face nh =? f)%N && negb (is_adhoc outfc) = false <-> (nh_face nh = f -> adhoc_face s (nh_face nh))).
  { unfold adhoc_face, is_adhoc. rewrite Eg. destruct (N.eqb_spec (nh_face nh) f) as [E|E]; simpl; [|by split].
    destruct (fc_link outfc) eqn:El; simpl; split; try done.
    - intros H. destruct (H E) as (fc & [= <-] & ?). congruence.
    - intros H. destruct (H E) as (fc & [= <-] & ?). congruence.
    - intros _ _. by exists outfc. }
  rewrite <- Hsc, <- Had. destruct (_ && _) eqn:E1; simpl.
  { split; [done|]. by intros (_ & ? & _). }
  destruct (would_violate_scope infc i outfc); [by split; [|intros (_ & _ & ?)]|]. split; [intros _; by split; [exists outfc|]|done].
Qed.
Lemma eligible_unused s f i nh e k : Inv s -> pit_at (fw_t s) k = Some e ->
  next_hop_eligible (fw_faces s) f i nh e (Some (now (fw_t s))) = true <-> next_hop_eligible (fw_faces s) f i nh e None = true /\ unused s k (nh_face nh).
Proof.
  intros I He. destruct (entry_ok _ _ _ I He) as [[_ N2 _ _] _]. unfold next_hop_eligible. destruct (fw_faces s !! f); [|by split; [|intros []]]. destruct (fw_faces s !! nh_face nh); [|by split; [|intros []]].
  destruct (_ || _); [by split; [|intros []]|].
  assert (Hu : unused s k (nh_face nh) <-> match find_out (nh_face nh) (pe_out e) with Some r => (fr_expiry (or_rec r) <= now (fw_t s))%Z | None => True end).
  { unfold unused, out_record_of. split.
    - intros H. destruct (find_out (nh_face nh) (pe_out e)) as [r|] eqn:E; [|done]. apply find_out_Some in E as [E1 E2]. apply H. by exists e.
    - intros H r (e' & He' & Hr & Hg). rewrite He in He'. injection He' as <-. rewrite <- Hg, (elem_find_out _ _ N2 Hr) in H. done. }
  rewrite Hu. destruct (find_out (nh_face nh) (pe_out e)) as [r|]; [|tauto]. destruct (Z.ltb_spec (now (fw_t s)) (fr_expiry (or_rec r))); simpl; split; try done; try (intros [_ ?]; lia). 
Qed.
