(** C55, C56: RIB updates wait for the forwarder. *)
From stdpp Require Import gmap.
From Verif Require Import Lib Name_Model Tab_Model Rib_Model Rib_Spec Rib_Hier RibQueue_Model RibQueue_Spec Rib_Props RibFib_Props RibQueue_Proof RibQueue_Inv.

(** C55: the RIB holds what the updates reported as successful, one after the other, make of it: it
    changes only on success, whatever the responses and their order *)
Theorem C55_rib l q : q_run l = Some q -> forall n f o, route_at (q_rib q) n f o = route_after (succeeded (q_log q)) n f o.
Proof. intros H%run_booked. apply H. Qed.
Print Assumptions C55_rib.

(** C55: the updates submitted are those reported, in order and each once, then the one under way,
    then those that wait; one is under way just if commands are, all of them its own, and nothing
    waits unless one is.  Missing: runs in which the forwarder says that the face of the update is
    gone while another command for it is under way ([C55_once_refuted]) *)
Theorem C55_serial_partial l us q :
  calm_run l -> watch submitted l = Some (us, q) ->
  exists cur : option job,
    map fst (q_log q) ++ option_list cur ++ q_queue q = numbered us /\
    (cur = None -> q_out q = [] /\ q_queue q = []) /\
    (forall j, cur = Some j -> q_out q <> [] /\ forall c, c ∈ q_out q -> c_job c = j) /\
    q_busy q = (if cur then true else false).
Proof.
  intros Hc Hu. destruct (run_watch answered l q (watch_run _ _ _ _ Hu)) as [ans Ha]. destruct (run_inv _ _ _ _ Hc Hu Ha) as [(K & [I1 I2] & Eq)|(j & K & W)].
  - exists None. pose proof (kp_jobs _ _ _ _ _ K) as Hj. rewrite Eq. split; [exact Hj|]. split; [done|]. split; [done|]. exact I1.
  - exists (Some j). pose proof (kp_jobs _ _ _ _ _ K) as Hj. split; [exact Hj|]. split; [done|]. split; [|apply W]. intros j' [= <-]. split; apply W.
Qed.
Print Assumptions C55_serial_partial.

(** C55: an update is reported successful only when the forwarder has answered all FIB updates it
    calls for, given the updates that succeeded before it; it is reported failed only when its face
    is gone.  Missing: as above *)
Theorem C55_reports_partial l ans q :
  calm_run l -> watch answered l = Some (ans, q) ->
  (forall l1 j l2, q_log q = l1 ++ (j, true) :: l2 -> carried_out (succeeded l1) j ans) /\
  (forall j, (j, false) ∈ q_log q -> exists x, (j, x, RFaceGone) ∈ ans /\ fu_face x = job_face j).
Proof.
  intros Hc Ha. destruct (run_watch submitted l q (watch_run _ _ _ _ Ha)) as [us Hu]. destruct (run_inv _ _ _ _ Hc Hu Ha) as [(K & _)|(j & K & _)]; split; apply K.
Qed.
Print Assumptions C55_reports_partial.

(** *** C56 *)
Definition attempts_ok (q : queue) : Prop :=
  forall c, c ∈ q_out q -> (c_tries c <= 10)%N /\ (c_tries c = 0 -> c_add c = fu_add (c_upd c))%N /\ (fu_add (c_upd c) = true -> c_add c = true).
Lemma attempts_send j l q : attempts_ok q -> attempts_ok (send j l q).
Proof. intros H c [Hc|Hc]%elem_of_app; [by apply H|]. apply elem_of_list_fmap in Hc as (x & -> & _). done. Qed.
Lemma attempts_sub q q' : attempts_ok q -> (forall c, c ∈ q_out q' -> c ∈ q_out q) -> attempts_ok q'.
Proof. intros H Hs c Hc. by apply H, Hs. Qed.
Lemma attempts_advance fuel q q' : attempts_ok q -> advance fuel q = Some q' -> attempts_ok q'.
Proof.
  revert q. induction fuel as [|fuel IH]; intros q H; simpl; destruct (q_busy q); try (by intros [= <-]); destruct (q_queue q) as [|j rest]; try done; try (by intros [= <-]).
  intros (q1 & E1 & K)%obind_some. assert (H1 : attempts_ok q1). { apply obind_some in E1 as (c & _ & [= <-]). done. }
  destruct (q_batch q1) as [|b bs]; [|injection K as <-; by apply attempts_send]. destruct (q_other q1); [|injection K as <-; by apply attempts_send].
  apply obind_some in K as (q2 & E2 & K). eapply IH; [|exact K]. apply obind_some in E2 as (R & _ & [= <-]). done.
Qed.
Lemma attempts_succeed j q q' : attempts_ok q -> succeed j q = Some q' -> attempts_ok q'.
Proof. intros H (q1 & E & K)%obind_some. eapply attempts_advance; [|exact K]. by apply obind_some in E as (R & _ & [= <-]). Qed.
Lemma attempts_other j u q q' : attempts_ok q -> other_done j u q = Some q' -> attempts_ok q'.
Proof. intros H. unfold other_done. destruct (q_other _); [|by intros [= <-]]. by apply attempts_succeed. Qed.
Lemma attempts_enqueue_all (us : list (name * route)) q : attempts_ok q -> attempts_ok (fold_left (fun q (x : name * route) => enqueue (RibUpdate RemoveFace (fst x) (snd x)) q) us q).
Proof. revert q. induction us as [|u us IH]; intros q Hb; simpl; [done|]. by apply IH. Qed.
Lemma attempts_step e q q' : attempts_ok q -> q_step e q = Some q' -> attempts_ok q'.
Proof.
  intros H. destruct e as [u|f|i r]; simpl.
  - by apply attempts_advance.
  - apply attempts_advance. by apply attempts_enqueue_all.
  - destruct (q_out q !! i) as [c|] eqn:Ei; [|by intros [= <-]].
    assert (H1 : attempts_ok (set_q_out (take i (q_out q) ++ drop (S i) (q_out q)) q)).
    { eapply attempts_sub; [exact H|]. intros d Hd. by eapply rest_in. }
    unfold on_response. destruct r; [| |destruct (_ =? _)%N|done].
    + destruct (_ =? _)%N; [|by apply attempts_other]. destruct (q_batch (set_q_batch _ _)); [|by intros [= <-]]. unfold send_other. cbn [q_other set_q_batch set_q_out].
      destruct (q_other q); [by apply attempts_succeed|]. intros [= <-]. by apply attempts_send.
    + destruct (N.ltb_spec (c_tries c) MAX_NUM_TIMEOUTS) as [Ht|]; [|done]. intros [= <-] d [Hd| ->%elem_of_list_singleton]%elem_of_app; [by apply H1|]. simpl. unfold MAX_NUM_TIMEOUTS in Ht. repeat split; lia.
    + by apply attempts_advance.
    + by apply attempts_other.
Qed.
(** C56: every addition is sent as an addition, at first and at each of at most ten retries; a removal
    is sent as a removal at first.  Missing: the retries of removals ([C56_remove_refuted]) *)
Theorem C56_same_partial l q c :
  q_run l = Some q -> c ∈ q_out q ->
  (c_tries c <= 10)%N /\ (c_tries c = 0%N -> c_add c = fu_add (c_upd c)) /\ (fu_add (c_upd c) = true -> c_add c = true).
Proof.
  intros H Hc. enough (attempts_ok q) as Hq by (by apply Hq). clear Hc. revert q H. induction l as [|e l IH] using rev_ind; intros q.
  { intros [= <-] d Hd. by apply elem_of_nil in Hd. }
  rewrite q_run_snoc. destruct (q_run l) as [q0|] eqn:E0; [|done]. intros H. eapply attempts_step; [|exact H]. by apply IH.
Qed.
Print Assumptions C56_same_partial.

(** C56: the FIB update is sent again after each of the first ten timeouts and nothing else changes;
    the eleventh ends the program *)
Theorem C56_retry l q i c :
  q_run l = Some q -> q_out q !! i = Some c ->
  if decide (c_tries c = 10%N) then q_step (QRespond i RTimeout) q = None
  else exists q' c', q_step (QRespond i RTimeout) q = Some q' /\
       c_job c' = c_job c /\ c_upd c' = c_upd c /\ c_tries c' = (c_tries c + 1)%N /\
       c :: q_out q' ≡ₚ c' :: q_out q /\
       q_rib q' = q_rib q /\ q_log q' = q_log q /\ q_queue q' = q_queue q /\ q_batch q' = q_batch q /\ q_other q' = q_other q /\ q_inh q' = q_inh q /\ q_busy q' = q_busy q.
Proof.
  intros H Ei. pose proof (C56_same_partial l q c H ltac:(by eapply elem_of_list_lookup_2)) as (Ht & _). simpl. rewrite Ei. simpl. destruct (decide _) as [E|E].
  - rewrite E. done.
  - destruct (N.ltb_spec (c_tries c) MAX_NUM_TIMEOUTS) as [Hl|Hl]; [|unfold MAX_NUM_TIMEOUTS in Hl; lia]. eexists _, (Cmd (c_job c) (c_upd c) true (c_tries c + 1)). split; [reflexivity|].
    do 3 (split; [done|]). split; [|done]. simpl. etransitivity; [|apply Permutation_skip; symmetry; exact (out_perm q i c Ei)].
    rewrite <-Permutation_cons_append. apply Permutation_swap.
Qed.
Print Assumptions C56_retry.

(** C56: no FIB update of a RIB update times out more than ten times.  Missing: as for C55 *)
Theorem C56_times_partial l ans q : calm_run l -> watch answered l = Some (ans, q) -> forall j x, (timeouts j x ans <= 10)%nat.
Proof.
  intros Hc Ha. destruct (run_watch submitted l q (watch_run _ _ _ _ Ha)) as [us Hu]. destruct (run_inv _ _ _ _ Hc Hu Ha) as [(K & _)|(j & K & _)]; apply K.
Qed.
Print Assumptions C56_times_partial.

(** ** What does not hold *)
Definition qreg (n : list N) (r : route) : qevent := QSubmit (RibUpdate Register (nm n) r).
Definition qunreg (n : list N) (r : route) : qevent := QSubmit (RibUpdate Unregister (nm n) r).
(** C55: a route that the routes below inherit calls for two FIB updates on its face.  The face is gone
    and both are refused: the update is reported failed twice *)
Definition child : route := rt 2 0 5 0.
Definition above : route := rt 1 0 10 1.
Definition gone2 : list qevent := [qreg [1; 2] child; QRespond 0 ROk; qreg [1] above; QRespond 0 RFaceGone; QRespond 0 RFaceGone]%N.
Theorem C55_once_refuted : exists l q j l1 l2 l3, q_run l = Some q /\ q_log q = l1 ++ (j, false) :: l2 ++ (j, false) :: l3.
Proof.
  assert (E : option_map q_log (q_run gone2) = Some [((0%N, RibUpdate Register (nm [1; 2]%N) child), true);
    ((1%N, RibUpdate Register (nm [1]%N) above), false); ((1%N, RibUpdate Register (nm [1]%N) above), false)]) by (vm_compute; reflexivity).
  destruct (q_run gone2) as [q|] eqn:Eq; [|done]. injection E as E. eexists gone2, q, _, [_], [], []. split; [exact Eq|exact E].
Qed.
Print Assumptions C55_once_refuted.
(** the second refusal also ends the wait for the next update: two updates are under way at once *)
Definition gone2_next : list qevent := [qreg [1; 2] child; QRespond 0 ROk; qreg [1] above; qreg [3] (rt 2 0 7 0); qreg [4] (rt 2 0 8 0); QRespond 0 RFaceGone; QRespond 0 RFaceGone]%N.
Theorem C55_one_refuted : exists l q a b, q_run l = Some q /\ a ∈ q_out q /\ b ∈ q_out q /\ fst (c_job a) <> fst (c_job b) /\
  forall r, r ∈ q_log q -> fst (fst r) <> fst (c_job a) /\ fst (fst r) <> fst (c_job b).
Proof.
  assert (E : option_map (fun q => (map (fun c => fst (c_job c)) (q_out q), map (fun r => fst (fst r)) (q_log q))) (q_run gone2_next) = Some ([2; 3], [0; 1; 1])%N) by (vm_compute; reflexivity).
  exists gone2_next. revert E. generalize (q_run gone2_next). intros [q|] E; [|done]. injection E as E1 E2. destruct (q_out q) as [|a [|b [|]]] eqn:Eo; try done. injection E1 as Ea Eb.
  exists q, a, b. split; [done|]. rewrite Eo. split; [left|]. split; [right; left|]. rewrite Ea, Eb. split; [done|]. intros r Hr.
  assert (H : fst (fst r) ∈ map (fun r => fst (fst r)) (q_log q)) by (apply elem_of_list_fmap; by exists r). rewrite E2 in H.
  apply elem_of_cons in H as [->|H]; [done|]. apply elem_of_cons in H as [->|H]; [done|]. by apply elem_of_list_singleton in H as ->.
Qed.
Print Assumptions C55_one_refuted.

(** C56: a removal that times out is sent again as an addition, with cost 0 *)
Definition lost_removal : list qevent := [qreg [1] child; QRespond 0 ROk; qunreg [1] child; QRespond 0 RTimeout]%N.
Theorem C56_remove_refuted : exists l q c, q_run l = Some q /\ c ∈ q_out q /\ fu_add (c_upd c) = false /\ c_add c = true /\ fu_cost (c_upd c) = 0%N.
Proof.
  assert (E : option_map q_out (q_run lost_removal) = Some [Cmd (1%N, RibUpdate Unregister (nm [1]%N) child) (FibUpdate false (nm [1]%N) 2 0) true 1]) by (vm_compute; reflexivity).
  exists lost_removal. revert E. generalize (q_run lost_removal). intros [q|] E; [|done]. injection E as E. eexists q, _. split; [done|]. rewrite E. split; [left|done].
Qed.
Print Assumptions C56_remove_refuted.

(** ** The hypotheses are met *)
(** three updates, timeouts, commands on two faces, a refusal on another face, a refusal on the face
    of an update; one update waits in the end *)
Definition busy_day : list qevent :=
  [qreg [1; 2] child; QRespond 0 RTimeout; QRespond 0 ROk; qreg [1] above; qunreg [5] child; qreg [6] child; qreg [7] (rt 3 0 1 0); QRespond 1 ROk; QRespond 0 RTimeout; QRespond 0 ROk; QRespond 0 RFaceGone; QRemoveFace 2; QRespond 7 ROk]%N.
Fixpoint calmb (l : list qevent) (q : queue) : bool :=
  match l with
  | [] => true
  | e :: l' =>
      match e with
      | QRespond i RFaceGone => match q_out q !! i with Some c => negb (fu_face (c_upd c) =? job_face (c_job c))%N || (length (q_out q) =? 1)%nat | None => true end
      | _ => true
      end && match q_step e q with Some q' => calmb l' q' | None => true end
  end.
Lemma calmb_ok l : calmb l queue_empty = true -> calm_run l.
Proof.
  unfold calm_run, q_run. generalize queue_empty. induction l as [|e0 l IH]; intros q0 H l1 e l2 q E; [by destruct l1|]. simpl in H. apply andb_true_iff in H as [H1 H2].
  destruct l1 as [|e1 l1]; simpl in E |- *.
  - intros [= <-]. injection E as -> _. destruct e as [| |i []]; try done. simpl. intros c Hc Hf. rewrite Hc in H1. apply orb_true_iff in H1 as [H1|H1]; [|by apply Nat.eqb_eq].
    by rewrite (proj2 (N.eqb_eq _ _) Hf) in H1.
  - injection E as -> E. destruct (q_step e1 q0) as [q1|]; [|done]. intros Hq. by eapply (IH q1).
Qed.
Example busy_day_ex : calm_run busy_day /\
  option_map (fun q => (map (fun x => (fst (fst x), snd x)) (q_log q), map fst (q_queue q), map (fun c => fst (c_job c)) (q_out q))) (q_run busy_day)
  = Some ([(0, true); (1, true); (2, true); (3, false)], [5], [4])%N.
Proof. split; [apply calmb_ok; vm_compute; reflexivity|vm_compute; reflexivity]. Qed.
