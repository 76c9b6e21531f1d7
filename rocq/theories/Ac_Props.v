(** C81: hub discovery. *)
From stdpp Require Import list.
From Verif Require Import Lib Ac_Model Ac_Spec Ac_Proof.
Open Scope list_scope.
Set Default Proof Using "Type".

Section autoconfig.
Context {U : Type}.
Definition started : ac U := issue RDataset (set_busy 0 true ac_init).
Definition answers (o : list (sout U)) (l : list (nat * reply U)) : list (nat * reply U * list (sout U)) := map (fun '(i, y) => (i, y, o)) l.
Theorem C81_start : run_once ac_init = Some started /\ a_pending started = [RDataset] /\ a_done started = [].
Proof. done. Qed.
(** Whatever is answered, and in whichever order, a run ends with one result when nothing is pending any more, not before; its requests and answers are a story with that result. *)
Theorem C81_story o l s : ac_steps (answers o l) started = Some s ->
  (a_pending s = [] -> exists b, a_done s = [b] /\ story o (a_hist s) b) /\ (a_pending s <> [] -> a_done s = []).
Proof.
  intros E. apply (phase_steps o l _ s (phase_first o)) in E.
  destruct E as [n a b|l' h pend Hl Hp Hne|l' h n a b Hl Hr Ho|l' h n a b Hl Hr Ho|h u n a b Hf|h u v n a b Hf|h u v f n a b Hf|h u v f n a b Hf|h b n a c Hs]; cbn; (split; [try done|done]).
  intros _. by exists b.
Qed.
(** Its exit code is 0 exactly if it has found a hub, connected to it and registered both prefixes. *)
Theorem C81_exit o l s : ac_steps (answers o l) started = Some s ->
  (exit_code (Some s) = Some 0%N <-> a_pending s = [] /\ story o (a_hist s) true /\ a_done s = [true]) /\
  (exit_code (Some s) = Some 1%N <-> a_pending s = [] /\ story o (a_hist s) false /\ a_done s = [false]).
Proof.
  intros E. destruct (C81_story o l s E) as [H _]. unfold exit_code. destruct (a_pending s) as [|q p].
  - destruct (H eq_refl) as (b & Hd & Hs). rewrite Hd. cbn. destruct b; naive_solver.
  - split; (split; [done|]); by intros [? _].
Qed.
Theorem C81_exit_exception : exit_code (U:=U) None = Some 1%N.
Proof. done. Qed.
(** A run that succeeds has created one face, for the hub, and has registered the two prefixes on it, the second after the first. *)
Theorem C81_success o h : story (U:=U) o h true ->
  exists h' u v f, h = h' ++ [(RCanonize u, YUri v); (RCreate v, YFace f); (RPrefix f 0, YOk); (RPrefix f 1, YOk)] /\
    (multicast h' (Some u) \/ (multicast h' None /\ first_hub o (Some u))).
Proof.
  inversion 1 as [h0 u h' b Hm Hc|h0 u h' b Hm Hf Hc|]; subst; inversion Hc; subst; eauto 10.
Qed.
(** An answer throws only if it is a Content or body that cannot be parsed, or another stage throws before one finds a hub. *)
Theorem C81_throws o l s i y : ac_steps (answers o l) started = Some s -> ac_step i y o s = None ->
  (y = YThrows /\ exists q, a_pending s !! i = Some q /\ (q = RHubData \/ exists u, q = RCreate u)) \/ (forall r, ~ first_hub o r).
Proof.
  intros E N. apply (phase_steps o l _ s (phase_first o)) in E.
  assert (Hb : forall j, (1 <= j)%nat -> is_busy j s = false). { intros [|[|[|[|j]]]] Hj; try lia; by destruct E. }
  unfold ac_step in N. destruct (a_pending s !! i) as [q|] eqn:Q; [|done].
  assert ((y = YThrows /\ (q = RHubData \/ exists u, q = RCreate u)) \/ (y = YThrows -> q <> RHubData /\ forall u, q <> RCreate u)) as [[-> Hq]|Hy].
  { destruct y; try (by right). destruct q; try (right; done); left; eauto. }
  - left. split; [done|]. by exists q.
  - right. intros r Hr. eapply (answer_total o r q y _ Hr); [|exact Hy|exact N]. exact Hb.
Qed.

(** * The daemon *)
(** A run that ends is repeated after one hour, a change of the network makes a run after five seconds; one run is planned at most. *)
Theorem C81_times now (d : dm U) :
  (forall i y o s, ac_step i y o (m_ac d) = Some s -> dm_step now (DReply i y o) d = Some (Dm s (if decide (length (a_done (m_ac d)) < length (a_done s))%nat then Some (now + 3600000)%Z else m_next d))) /\
  (forall i y o, ac_step i y o (m_ac d) = None -> dm_step now (DReply i y o) d = None) /\
  dm_step now DNetwork d = Some (Dm (m_ac d) (Some (now + 5000)%Z)) /\
  (forall t, m_next d = Some t -> (now < t)%Z -> dm_step now DTimer d = Some d) /\
  (forall t, m_next d = Some t -> (t <= now)%Z -> is_busy 0 (m_ac d) = false -> dm_step now DTimer d = Some (Dm (issue RDataset (set_busy 0 true (m_ac d))) None)) /\
  (m_next d = None -> dm_step now DTimer d = Some d).
Proof.
  unfold dm_step. repeat split.
  - intros i y o s ->. do 2 f_equal. destruct (Nat.ltb_spec (length (a_done (m_ac d))) (length (a_done s))); [by rewrite decide_True|rewrite decide_False by lia; done].
  - by intros i y o ->.
  - intros t -> H. destruct (Z.leb_spec t now); [lia|done].
  - intros t -> H Hb. destruct (Z.leb_spec t now); [|lia]. unfold run_once. by rewrite Hb.
  - by intros ->.
Qed.
(** As long as no exception ends it, a run is planned or a request is pending. *)
Theorem C81_alive l t0 d : dm_steps (U:=U) l (dm_init t0) = Some d -> m_next d <> None \/ a_pending (m_ac d) <> [].
Proof.
  assert (G : forall l (d d' : dm U), orderly (m_ac d) -> m_next d <> None \/ a_pending (m_ac d) <> [] -> dm_steps l d = Some d' -> m_next d' <> None \/ a_pending (m_ac d') <> []).
  { clear. induction l as [|[now e] l IH]; intros d d' Ho Hd E; cbn [dm_steps] in E; [by simplify_eq|]. destruct (dm_step now e d) as [d1|] eqn:E1; [|done].
    enough (orderly (m_ac d1) /\ (m_next d1 <> None \/ a_pending (m_ac d1) <> [])) as [? ?] by (by eapply IH). clear IH E.
    destruct e as [| |i y o]; cbn [dm_step] in E1.
    - destruct (m_next d) as [t|] eqn:N; [|injection E1 as <-; by rewrite N]. destruct (t <=? now)%Z; [|injection E1 as <-; rewrite N; by auto].
      unfold run_once in E1. destruct (is_busy 0 (m_ac d)) eqn:B; [done|]. injection E1 as <-. cbn [m_ac m_next]. split; [|right; cbn; by destruct (a_pending (m_ac d))].
      destruct Ho as (b0 & Eb & H0 & _). unfold is_busy in B. rewrite Eb in B. cbn in B. subst b0. destruct (H0 eq_refl) as [Z1 Z2]. exists true. cbn [issue set_busy a_busy a_pending]. rewrite Eb. split; [done|]. split; [done|].
      intros _. left. rewrite !cnt_app, !cnt_one, Z1, Z2. done.
    - injection E1 as <-. split; [done|by left].
    - destruct (ac_step i y o (m_ac d)) as [s|] eqn:S; [|done]. injection E1 as <-. cbn [m_ac m_next]. destruct (a_pending (m_ac d) !! i) as [q|] eqn:Q.
      + destruct (step_orderly o i y _ s q Ho Q S) as [Ho' [Hp|Hl]]; (split; [done|]); [by right|]. destruct (Nat.ltb_spec (length (a_done (m_ac d))) (length (a_done s))); [by left|lia].
      + unfold ac_step in S. rewrite Q in S. injection S as <-. split; [done|]. destruct (_ <? _)%nat; [by left|done]. }
  apply G; [|by left]. exists false. split; [done|]. split; [|done]. intros _. done.
Qed.
(** No answer to a request is lost: while a stage of multicast discovery is in progress, one of its requests is pending, and while none is in progress, none is. *)
Theorem C81_orderly l t0 d : dm_steps (U:=U) l (dm_init t0) = Some d ->
  (is_busy 0 (m_ac d) = true <-> exists q, q ∈ a_pending (m_ac d) /\ match q with RDataset | RHubReg _ | RStrategy | RHubData => True | _ => False end).
Proof.
  intros E. assert (O : orderly (m_ac d)).
  { revert E. assert (G : forall l (d d' : dm U), orderly (m_ac d) -> dm_steps l d = Some d' -> orderly (m_ac d')).
    { clear. induction l as [|[now e] l IH]; intros d d' Ho E; cbn [dm_steps] in E; [by simplify_eq|]. destruct (dm_step now e d) as [d1|] eqn:E1; [|done].
      eapply (IH d1); [|exact E]. clear IH E. destruct e as [| |i y o]; cbn [dm_step] in E1.
      - destruct (m_next d) as [t|]; [|by injection E1 as <-]. destruct (t <=? now)%Z; [|by injection E1 as <-].
        unfold run_once in E1. destruct (is_busy 0 (m_ac d)) eqn:B; [done|]. injection E1 as <-. cbn [m_ac].
        destruct Ho as (b0 & Eb & H0 & _). unfold is_busy in B. rewrite Eb in B. cbn in B. subst b0. destruct (H0 eq_refl) as [Z1 Z2]. exists true. cbn [issue set_busy a_busy a_pending]. rewrite Eb. split; [done|]. split; [done|].
        intros _. left. rewrite !cnt_app, !cnt_one, Z1, Z2. done.
      - by injection E1 as <-.
      - destruct (ac_step i y o (m_ac d)) as [s|] eqn:S; [|done]. injection E1 as <-. cbn [m_ac]. destruct (a_pending (m_ac d) !! i) as [q|] eqn:Q; [by destruct (step_orderly o i y _ s q Ho Q S)|].
        unfold ac_step in S. rewrite Q in S. by injection S as <-. }
    apply G. exists false. split; [done|]. split; [|done]. intros _. done. }
  destruct O as (b0 & Eb & H0 & H1). unfold is_busy. rewrite Eb. cbn [lookup list_lookup default].
  assert (P : forall p l, (0 < cnt (U:=U) p l)%nat <-> exists q, q ∈ l /\ p q = true).
  { clear. intros p l. induction l as [|x l IH]; [split; [cbn; unfold cnt; cbn; lia|intros (q & H & _); by apply elem_of_nil in H]|].
    change (x :: l) with ([x] ++ l). rewrite cnt_app, cnt_one. split.
    - intros H. destruct (p x) eqn:Px; [exists x; split; [set_solver|done]|]. destruct (proj1 IH ltac:(lia)) as (q & Hq & Pq). exists q. split; [set_solver|done].
    - intros (q & [Hq|Hq]%elem_of_app & Pq); [apply elem_of_list_singleton in Hq as ->; rewrite Pq; lia|]. assert (0 < cnt p l)%nat by (apply IH; eauto). lia. }
  split.
  - intros Hb. assert (Hb0 : b0 = true) by exact Hb. destruct (H1 Hb0) as [[Z1 Z2]|(Z1 & Z2 & _)].
    + destruct (proj1 (P mc_req (a_pending (m_ac d))) ltac:(lia)) as (q & Hq & Pq). exists q. split; [done|]. by destruct q.
    + destruct (proj1 (P reg_req (a_pending (m_ac d))) ltac:(lia)) as (q & Hq & Pq). exists q. split; [done|]. by destruct q.
  - intros (q & Hq & Mq). destruct b0; [done|]. destruct (H0 eq_refl) as [Z1 Z2]. exfalso.
    assert (0 < cnt mc_req (a_pending (m_ac d)) \/ 0 < cnt reg_req (a_pending (m_ac d)))%nat; [|lia]. rewrite !P. destruct q; try done; [left|right|left|left]; eauto.
Qed.
End autoconfig.

(** * Where it is not as expected *)
(** The daemon, which is to run until it is stopped, ends if a neighbour answers the discovery with a Data whose Content is no sequence of elements. *)
Theorem C81_malformed_refuted : dm_steps (U:=N) [(100, DTimer); (101, DReply 0 (YFaces [7%N]) []); (102, DReply 0 YOk []); (103, DReply 0 YOk []); (104, DReply 0 YThrows [])]%Z (dm_init 0) = None.
Proof. vm_compute. reflexivity. Qed.
(** It ends if there is no hub to be found and no default identity, instead of trying again after an hour. *)
Theorem C81_identity_refuted : dm_steps (U:=N) [(100, DTimer); (101, DReply 0 (YFaces []) [SFail; SFail; SThrows])]%Z (dm_init 0) = None /\
  (exists d, dm_steps (U:=N) [(100, DTimer); (101, DReply 0 (YFaces []) [SFail; SFail; SFail])]%Z (dm_init 0) = Some d /\ m_next d = Some 3600101%Z /\ a_done (m_ac d) = [false]).
Proof. split; [vm_compute; reflexivity|]. eexists. split; [vm_compute; reflexivity|]. split; vm_compute; reflexivity. Qed.
(** It ends if the network changes while multicast discovery is in progress and that takes five seconds more. *)
Theorem C81_overlap_refuted : dm_steps (U:=N) [(100, DTimer); (101, DReply 0 (YFaces [7%N]) []); (200, DNetwork); (5200, DTimer)]%Z (dm_init 0) = None.
Proof. vm_compute. reflexivity. Qed.
(** A change of the network in the last five seconds of a run is forgotten: the next run is an hour later. *)
Theorem C81_lost_change_refuted : exists d, dm_steps (U:=N) [(100, DTimer); (1000, DNetwork); (2000, DReply 0 YFail [SFail; SFail; SFail]); (6000, DTimer)]%Z (dm_init 0) = Some d /\ a_pending (m_ac d) = [] /\ m_next d = Some 3602000%Z.
Proof. eexists. split; [vm_compute; reflexivity|]. split; vm_compute; reflexivity. Qed.

(** * Examples *)
Example C81_ex_run : exists s, ac_steps (answers (U:=N) [SFail; SUri 5%N; SThrows] [(0%nat, YFaces [7%N; 8%N]); (1%nat, YFail); (0%nat, YFail); (0%nat, YUri 6%N); (0%nat, YFace 300%N); (0%nat, YOk); (0%nat, YOk)]) started = Some s /\
  a_pending s = [] /\ a_done s = [true] /\ exit_code (Some s) = Some 0%N.
Proof. eexists. split; [vm_compute; reflexivity|]. repeat split; vm_compute; reflexivity. Qed.
Example C81_ex_multicast : exists s, ac_steps (answers (U:=N) [] [(0%nat, YFaces [7%N; 8%N]); (1%nat, YOk); (0%nat, YFail); (0%nat, YOk); (0%nat, YHub 5%N); (0%nat, YUri 6%N)]) started = Some s /\ a_pending s = [RCreate 6%N] /\ a_done s = [].
Proof. eexists. split; [vm_compute; reflexivity|]. repeat split; vm_compute; reflexivity. Qed.
Print Assumptions C81_start.
Print Assumptions C81_story.
Print Assumptions C81_exit.
Print Assumptions C81_success.
Print Assumptions C81_throws.
Print Assumptions C81_times.
Print Assumptions C81_alive.
Print Assumptions C81_orderly.
