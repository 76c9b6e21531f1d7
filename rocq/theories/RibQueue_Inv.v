(** The queue when refusals come one at a time. *)
From stdpp Require Import gmap.
From Verif Require Import Lib Name_Model Name_Proof Tab_Model Rib_Model Rib_Spec RibQueue_Model RibQueue_Spec Rib_Hier Rib_Inv Rib_Props RibFib_Look RibFib_Props RibQueue_Proof.

(** what holds whether or not a job is under way; [cur]: the job under way, if any; [rest]: those that wait *)
Record kept (us : list rib_update) (ans : list answer) (cur rest : list job) (q : queue) : Prop := {
  kp_jobs : map fst (q_log q) ++ cur ++ rest = numbered us;
  kp_next : q_next q = N.of_nat (length us);
  kp_booked : booked q;
  kp_ok : forall l1 j l2, q_log q = l1 ++ (j, true) :: l2 -> carried_out (succeeded l1) j ans;
  kp_failed : forall j, (j, false) ∈ q_log q -> exists x, (j, x, RFaceGone) ∈ ans /\ fu_face x = job_face j;
  kp_times : forall j x, (timeouts j x ans <= 10)%nat;
  kp_fresh : forall j x, fst j ∉ map fst (map fst (q_log q) ++ cur) -> timeouts j x ans = 0%nat;
}.
Definition done_upd (j : job) (ans : list answer) (x : fib_update) : Prop := (j, x, ROk) ∈ ans \/ ((j, x, RFaceGone) ∈ ans /\ fu_face x <> job_face j).
(** a job is under way *)
Record working (ans : list answer) (j : job) (q : queue) : Prop := {
  wk_busy : q_busy q = true;
  wk_face : q_face q = job_face j;
  wk_c : exists c, compute (rb_map (q_rib q)) (snd j) = Some c /\ q_inh q = u_inh c /\ forall x, x ∈ u_batch c ++ u_other c -> x ∈ q_batch q \/ x ∈ q_other q \/ done_upd j ans x;
  wk_batch : forall x, x ∈ q_batch q -> fu_face x = job_face j;
  wk_other : forall x, x ∈ q_other q -> fu_face x <> job_face j;
  wk_nd1 : NoDup (q_batch q);
  wk_nd2 : NoDup (q_other q);
  wk_jobs : forall c, c ∈ q_out q -> c_job c = j;
  wk_out : map c_upd (q_out q) ≡ₚ (match q_batch q with [] => q_other q | l => l end);
  wk_some : q_out q <> [];
  wk_times : forall c, c ∈ q_out q -> timeouts j (c_upd c) ans = N.to_nat (c_tries c);
  wk_zero : q_batch q <> [] -> forall x, x ∈ q_other q -> timeouts j x ans = 0%nat;
}.
Definition idle (q : queue) : Prop := q_busy q = false /\ q_out q = [].
Definition qinv (us : list rib_update) (ans : list answer) (q : queue) : Prop :=
  (kept us ans [] [] q /\ idle q /\ q_queue q = []) \/ exists j, kept us ans [j] (q_queue q) q /\ working ans j q.

Lemma timeouts_app j x l k : timeouts j x (l ++ k) = (timeouts j x l + timeouts j x k)%nat.
Proof. unfold timeouts. by rewrite List.filter_app, app_length. Qed.
Lemma numbered_snoc us u : numbered (us ++ [u]) = numbered us ++ [(N.of_nat (length us), u)].
Proof. unfold numbered. rewrite imap_app. simpl. by rewrite Nat.add_0_r. Qed.
Lemma numbered_fst us i j : numbered us !! i = Some j -> fst j = N.of_nat i.
Proof. unfold numbered. rewrite list_lookup_imap. destruct (us !! i); [|done]. by intros [= <-]. Qed.
Lemma numbered_nodup us : NoDup (map fst (numbered us)).
Proof.
  apply NoDup_alt. intros i j x Hi Hj. rewrite list_lookup_fmap in Hi, Hj. apply fmap_Some in Hi as (a & Ha & ->). apply fmap_Some in Hj as (b & Hb & E).
  apply numbered_fst in Ha. apply numbered_fst in Hb. lia.
Qed.
Lemma kept_ext us ans cur rest q q' :
  q_log q' = q_log q -> q_rib q' = q_rib q -> q_next q' = q_next q -> kept us ans cur rest q -> kept us ans cur rest q'.
Proof. intros E1 E2 E3 [K1 K2 K3 K4 K5 K6 K7]. split; rewrite ?E1, ?E3; try done. unfold booked. by rewrite E1, E2. Qed.
Lemma kept_begin us ans j rest q : kept us ans [] (j :: rest) q -> kept us ans [j] rest q /\ forall x, timeouts j x ans = 0%nat.
Proof.
  intros K. pose proof (numbered_nodup us) as H. rewrite <-(kp_jobs _ _ _ _ _ K) in H. simpl in H. rewrite map_app in H. simpl in H. apply NoDup_app in H as (_ & H1 & _).
  destruct K as [K1 K2 K3 K4 K5 K6 K7]. split.
  - split; try done. intros j' x Hj. apply K7. rewrite map_app in *. set_solver.
  - intros x. apply K7. rewrite app_nil_r. intros Hj. by eapply H1; [exact Hj|left].
Qed.

(** a job is reported *)
Lemma done_mono j ans a x : done_upd j ans x -> done_upd j (ans ++ a) x.
Proof. intros [H|[H1 H2]]; [left|right]; rewrite elem_of_app; auto. Qed.
Lemma carried_mono b j ans a : carried_out b j ans -> carried_out b j (ans ++ a).
Proof. intros (R & c & H1 & H2 & H3). exists R, c. split; [done|]. split; [done|]. intros x Hx. apply (done_mono j ans a x). by apply H3. Qed.
Lemma log_split {A} (l1 l2 l : list A) x y : l ++ [x] = l1 ++ y :: l2 -> (l1 = l /\ y = x) \/ exists l2', l = l1 ++ y :: l2'.
Proof.
  destruct l2 as [|z l2] using rev_ind.
  - intros [-> ->]%(app_inj_tail l l1 x y). by left.
  - intros H. right. exists l2. rewrite app_comm_cons, app_assoc in H. by apply app_inj_tail in H as [-> _].
Qed.
Lemma kept_ok us ans j rest q q' :
  kept us ans [j] rest q -> (exists c, compute (rb_map (q_rib q)) (snd j) = Some c /\ forall x, x ∈ u_batch c ++ u_other c -> done_upd j ans x) ->
  finish_ok j q = Some q' -> kept us ans [] rest q'.
Proof.
  intros [K1 K2 K3 K4 K5 K6 K7] (c & Hc & Hd) E. pose proof (finish_ok_booked _ _ _ K3 E) as Hb. apply obind_some in E as (R & ER & [= <-]). split; simpl; try done.
  - rewrite map_app, <-app_assoc. done.
  - intros l1 j' l2 [[-> [= ->]]|[l2' E]]%log_split; [|by eapply K4]. exists (q_rib q), c. split; [apply K3|]. split; [done|]. done.
  - intros j' [H|[=]%elem_of_list_singleton]%elem_of_app. by apply K5.
  - intros j' x. rewrite app_nil_r, (map_app fst (q_log q)). apply K7.
Qed.
Lemma kept_failed us ans j rest q x :
  kept us ans [j] rest q -> (j, x, RFaceGone) ∈ ans -> fu_face x = job_face j -> kept us ans [] rest (finish_failed j q).
Proof.
  intros K Hx Hface. pose proof (finish_failed_booked j _ (kp_booked _ _ _ _ _ K)) as Hb. destruct K as [K1 K2 K3 K4 K5 K6 K7]. split; simpl; try done.
  - rewrite map_app, <-app_assoc. done.
  - intros l1 j' l2 [[-> [=]]|[l2' E]]%log_split. by eapply K4.
  - intros j' [H|[= ->]%elem_of_list_singleton]%elem_of_app; [by apply K5|by exists x].
  - intros j' y. rewrite app_nil_r, (map_app fst (q_log q)). apply K7.
Qed.

Lemma send_upds j l q : map c_upd (q_out (send j l q)) = map c_upd (q_out q) ++ l.
Proof. unfold send. simpl. rewrite map_app, map_map. simpl. by rewrite map_id. Qed.
Lemma first_try_in j l c : c ∈ map (first_try j) l -> c_job c = j /\ c_upd c ∈ l /\ c_tries c = 0%N.
Proof. intros (x & -> & Hx)%elem_of_list_fmap. done. Qed.

(** the queue advances until a job has something to send *)
Lemma advance_inv us ans fuel q q' :
  (length (q_queue q) <= fuel)%nat -> kept us ans [] (q_queue q) q -> idle q -> advance fuel q = Some q' -> qinv us ans q'.
Proof.
  revert q. induction fuel as [|fuel IH]; intros q Hl K [Hb Ho]; simpl; rewrite Hb.
  { destruct (q_queue q) eqn:Eq; [|done]. intros [= <-]. left. by rewrite Eq. }
  destruct (q_queue q) as [|j rest] eqn:Eq; [intros [= <-]; left; by rewrite Eq|].
  intros (q1 & E1 & H)%obind_some. unfold begin in E1. apply obind_some in E1 as (c & Ec & [= <-]). cbn [q_batch q_other] in H.
  pose proof (compute_ok _ _ _ Ec) as [O1 O2 O3 O4]. pose proof (compute_face _ _ _ Ec) as Hf. apply kept_begin in K as [K Hzero].
  set (q1 := Queue (q_rib q) true rest (u_face c) (u_batch c) (u_other c) (u_inh c) (q_out q) (q_log q) (q_next q)) in *.
  assert (K1 : kept us ans [j] rest q1) by (by eapply kept_ext; [..|exact K]).
  assert (Hsend : forall l, l = match u_batch c with [] => u_other c | l => l end -> l <> [] -> qinv us ans (send j l q1)).
  { intros l El Hne. right. exists j. split; [by eapply kept_ext; [..|exact K1]|]. split; simpl; try done.
    - exists c. split; [done|]. split; [done|]. set_solver.
    - intros x Hx. rewrite (O1 x Hx). done.
    - intros x Hx. unfold job_face. rewrite <-Hf. by apply O2.
    - by apply nodup_key.
    - by apply nodup_key.
    - intros c'. rewrite Ho. simpl. intros Hc'. by apply first_try_in in Hc' as (? & _).
    - rewrite Ho. simpl. rewrite map_map. simpl. rewrite map_id. by rewrite El.
    - rewrite Ho. simpl. by destruct l.
    - intros c'. rewrite Ho. simpl. intros Hc'. apply first_try_in in Hc' as (_ & _ & ->). apply Hzero.
  }
  destruct (u_batch c) as [|b bs] eqn:Eb; [|injection H as <-; by apply Hsend]. destruct (u_other c) as [|o os] eqn:Eo; [|injection H as <-; by apply Hsend].
  apply obind_some in H as (q2 & E2 & H). pose proof E2 as E2'. unfold finish_ok in E2'. apply obind_some in E2' as (R & _ & [= Eq2]).
  eapply (IH q2); [..|exact H].
  - rewrite <-Eq2. simpl in *. lia.
  - replace (q_queue q2) with rest by (by rewrite <-Eq2). eapply kept_ok; [exact K1| |exact E2]. exists c. split; [done|]. rewrite Eb, Eo. set_solver.
  - by rewrite <-Eq2.
Qed.
Lemma go_inv us ans q q' : kept us ans [] (q_queue q) q -> idle q -> go q = Some q' -> qinv us ans q'.
Proof. by apply advance_inv. Qed.

(** more is submitted *)
Lemma kept_enqueue us ans cur q u : kept us ans cur (q_queue q) q -> kept (us ++ [u]) ans cur (q_queue (enqueue u q)) (enqueue u q).
Proof.
  intros [K1 K2 K3 K4 K5 K6 K7]. split; simpl; try done.
  - rewrite numbered_snoc, <-K1, K2, <-!app_assoc. done.
  - rewrite app_length, K2. simpl. lia.
Qed.
Lemma go_busy q : q_busy q = true -> go q = Some q.
Proof. intros H. unfold go. destruct (length _); simpl; by rewrite H. Qed.
Lemma go_none q : q_queue q = [] -> go q = Some q.
Proof. intros H. unfold go. rewrite H. simpl. rewrite H. by destruct (q_busy q). Qed.
Definition inv1 us ans q : Prop := (kept us ans [] (q_queue q) q /\ idle q) \/ exists j, kept us ans [j] (q_queue q) q /\ working ans j q.
Lemma inv1_go us ans q q' : inv1 us ans q -> go q = Some q' -> qinv us ans q'.
Proof. intros [[K I]|(j & K & W)]; [by apply go_inv|]. rewrite go_busy by apply W. intros [= <-]. right. by exists j. Qed.
Lemma qinv_inv1 us ans q : qinv us ans q -> inv1 us ans q.
Proof. intros [(K & I & E)|H]; [left; by rewrite E|by right]. Qed.
Lemma inv1_enqueue us ans q u : inv1 us ans q -> inv1 (us ++ [u]) ans (enqueue u q).
Proof.
  intros [[K I]|(j & K & W)]; [left|right; exists j]; (split; [by apply kept_enqueue|]); [done|]. by destruct W.
Qed.
Lemma inv1_enqueue_all us ans q (l : list (name * route)) :
  inv1 us ans q -> inv1 (us ++ map (fun x => RibUpdate RemoveFace (fst x) (snd x)) l) ans (fold_left (fun q (x : name * route) => enqueue (RibUpdate RemoveFace (fst x) (snd x)) q) l q).
Proof.
  revert us q. induction l as [|x l IH]; intros us q I; simpl; [by rewrite app_nil_r|]. rewrite cons_middle, app_assoc. by apply IH, inv1_enqueue.
Qed.

Global Instance fu_eq_dec : EqDecision fib_update. Proof. solve_decision. Defined.
(** a response *)
Lemma is_timeout_other j x a : (match snd a with RTimeout => false | _ => true end) = true -> is_timeout j x a = false.
Proof. unfold is_timeout. destruct a as [[j' x'] []]; simpl; intros; try done; by rewrite andb_false_r. Qed.
Lemma timeouts_other j x ans a : (match snd a with RTimeout => false | _ => true end) = true -> timeouts j x (ans ++ [a]) = timeouts j x ans.
Proof. intros H. rewrite timeouts_app. unfold timeouts at 2. simpl. rewrite is_timeout_other by done. simpl. lia. Qed.
Lemma kept_answer us ans cur rest q a : (match snd a with RTimeout => false | _ => true end) = true -> kept us ans cur rest q -> kept us (ans ++ [a]) cur rest q.
Proof.
  intros Ha [K1 K2 K3 K4 K5 K6 K7]. split; try done.
  - intros l1 j l2 E. by eapply carried_mono, K4.
  - intros j Hj. destruct (K5 j Hj) as (x & H1 & H2). exists x. split; [|done]. apply elem_of_app. by left.
  - intros j x. rewrite timeouts_other by done. apply K6.
  - intros j x. rewrite timeouts_other by done. apply K7.
Qed.

Lemma take_drop_perm {A} (l : list A) i x : l !! i = Some x -> l ≡ₚ x :: (take i l ++ drop (S i) l).
Proof. intros H. rewrite <-(take_drop_middle l i x H) at 1. by rewrite Permutation_middle. Qed.
Lemma succeed_inv us ans j q q' : kept us ans [j] (q_queue q) q -> (exists c, compute (rb_map (q_rib q)) (snd j) = Some c /\ forall x, x ∈ u_batch c ++ u_other c -> done_upd j ans x) ->
  q_out q = [] -> succeed j q = Some q' -> qinv us ans q'.
Proof.
  intros K Hc Ho (q1 & E1 & H)%obind_some. pose proof E1 as E1'. unfold finish_ok in E1'. apply obind_some in E1' as (R & _ & [= Eq1]).
  eapply go_inv; [..|exact H]; [|by rewrite <-Eq1]. replace (q_queue q1) with (q_queue q) by (by rewrite <-Eq1). by eapply kept_ok.
Qed.
Lemma nil_perm {A} (l : list A) (k : list A) : l ≡ₚ k -> l = [] -> k = [].
Proof. intros H ->. by apply Permutation_nil in H. Qed.
Lemma map_nil {A B} (f : A -> B) l : map f l = [] -> l = [].
Proof. by destruct l. Qed.

Section Response.
  Context (us : list rib_update) (ans : list answer) (j : job) (q : queue) (i : nat) (c : command).
  Context (K : kept us ans [j] (q_queue q) q) (W : working ans j q) (Ei : q_out q !! i = Some c).
  Local Notation rest := (take i (q_out q) ++ drop (S i) (q_out q)).
  Lemma out_perm : q_out q ≡ₚ c :: rest. Proof using Ei. by apply take_drop_perm. Qed.
  Lemma pend_perm : (match q_batch q with [] => q_other q | l => l end) ≡ₚ c_upd c :: map c_upd rest.
  Proof using W Ei. rewrite <-(wk_out _ _ _ W). by rewrite out_perm at 1. Qed.
  Lemma c_in : c ∈ q_out q. Proof using Ei. by eapply elem_of_list_lookup_2. Qed.
  Lemma rest_in d : d ∈ rest -> d ∈ q_out q. Proof using Ei. intros H. rewrite out_perm. by right. Qed.
  Lemma pend_nodup : NoDup (c_upd c :: map c_upd rest).
  Proof using W Ei. rewrite <-pend_perm. destruct (q_batch q) eqn:E; [apply (wk_nd2 _ _ _ W)|]. rewrite <-E. apply (wk_nd1 _ _ _ W). Qed.
  Lemma in_batch : fu_face (c_upd c) = job_face j -> q_batch q <> [].
  Proof using W Ei.
    intros Hf E. assert (c_upd c ∈ q_other q). { pose proof pend_perm as H. rewrite E in H. rewrite H. left. } by eapply (wk_other _ _ _ W).
  Qed.
  Lemma in_other : fu_face (c_upd c) <> job_face j -> q_batch q = [].
  Proof using W Ei.
    intros Hf. destruct (q_batch q) eqn:E; [done|]. destruct Hf. apply (wk_batch _ _ _ W). rewrite E. pose proof pend_perm as H. rewrite E in H. rewrite H. left.
  Qed.
  Lemma other_done_inv r q' :
    fu_face (c_upd c) <> job_face j -> done_upd j (ans ++ [(j, c_upd c, r)]) (c_upd c) -> r <> RTimeout ->
    other_done j (c_upd c) (set_q_out rest q) = Some q' -> qinv us (ans ++ [(j, c_upd c, r)]) q'.
  Proof using K W Ei.
    intros Hf Hd Hr. pose proof (in_other Hf) as Eb. pose proof pend_perm as Hp. rewrite Eb in Hp. pose proof (fu_remove_perm _ _ _ (wk_nd2 _ _ _ W) Hp) as Hrem.
    assert (Hnt : (match r with RTimeout => false | _ => true end) = true) by (by destruct r).
    assert (K' : kept us (ans ++ [(j, c_upd c, r)]) [j] (q_queue q) q) by (by apply kept_answer).
    assert (Hc : exists c0, compute (rb_map (q_rib q)) (snd j) = Some c0 /\ q_inh q = u_inh c0 /\
       forall x, x ∈ u_batch c0 ++ u_other c0 -> x ∈ fu_remove (c_upd c) (q_other q) \/ done_upd j (ans ++ [(j, c_upd c, r)]) x).
    { destruct (wk_c _ _ _ W) as (c0 & Hc & Hi & Hx). exists c0. split; [done|]. split; [done|]. intros x [H|[H|H]]%Hx.
      - rewrite Eb in H. by apply elem_of_nil in H.
      - destruct (decide (fu_eqb x (c_upd c) = true)) as [->%fu_eqb_eq|Hne]; [by right|]. left. apply elem_of_fu_remove. split; [done|]. intros ->. by rewrite fu_eqb_refl in Hne.
      - right. by apply done_mono. }
    unfold other_done. cbn [q_other set_q_other set_q_out]. destruct (fu_remove (c_upd c) (q_other q)) as [|y ys] eqn:Er.
    - intros H. eapply succeed_inv; [..|exact H]; simpl.
      + by eapply kept_ext; [..|exact K'].
      + destruct Hc as (c0 & Hc & _ & Hx). exists c0. split; [done|]. intros x Hxx. destruct (Hx x Hxx) as [Hn|]; [by apply elem_of_nil in Hn|done].
      + by eapply map_nil, nil_perm.
    - intros [= <-]. right. exists j. split; [by eapply kept_ext; [..|exact K']|]. split; simpl; rewrite ?Eb.
      + apply W.
      + apply W.
      + destruct Hc as (c0 & Hc & Hi & Hx). exists c0. split; [done|]. split; [done|]. intros x Hxx. right. by apply Hx.
      + intros x Hx. by apply elem_of_nil in Hx.
      + intros x. rewrite <-Er. rewrite elem_of_fu_remove. intros [Hx _]. by apply (wk_other _ _ _ W).
      + constructor.
      + rewrite <-Er. apply fu_remove_nodup, W.
      + intros d Hd'. by apply (wk_jobs _ _ _ W), rest_in.
      + by rewrite <-Hrem.
      + intros E. rewrite E in Hrem. simpl in Hrem. symmetry in Hrem. by apply Permutation_nil_cons in Hrem.
      + intros d Hd'. rewrite timeouts_other by done. by apply (wk_times _ _ _ W), rest_in.
      + done.
  Qed.
  Lemma batch_done_inv q' :
    fu_face (c_upd c) = job_face j -> on_response c ROk (set_q_out rest q) = Some q' -> qinv us (ans ++ [(j, c_upd c, ROk)]) q'.
  Proof using K W Ei.
    intros Hf. pose proof (in_batch Hf) as Eb. pose proof pend_perm as Hp.
    assert (Hpb : q_batch q ≡ₚ c_upd c :: map c_upd rest) by (destruct (q_batch q); done). clear Hp.
    pose proof (fu_remove_perm _ _ _ (wk_nd1 _ _ _ W) Hpb) as Hrem.
    assert (K' : kept us (ans ++ [(j, c_upd c, ROk)]) [j] (q_queue q) q) by (by apply kept_answer).
    assert (Hd : done_upd j (ans ++ [(j, c_upd c, ROk)]) (c_upd c)) by (left; apply elem_of_app; right; left).
    assert (Hc : exists c0, compute (rb_map (q_rib q)) (snd j) = Some c0 /\ q_inh q = u_inh c0 /\
       forall x, x ∈ u_batch c0 ++ u_other c0 -> x ∈ fu_remove (c_upd c) (q_batch q) \/ x ∈ q_other q \/ done_upd j (ans ++ [(j, c_upd c, ROk)]) x).
    { destruct (wk_c _ _ _ W) as (c0 & Hc & Hi & Hx). exists c0. split; [done|]. split; [done|]. intros x [H|[H|H]]%Hx.
      - destruct (decide (fu_eqb x (c_upd c) = true)) as [->%fu_eqb_eq|Hne]; [by right; right|]. left. apply elem_of_fu_remove. split; [done|]. intros ->. by rewrite fu_eqb_refl in Hne.
      - by right; left.
      - right; right. by apply done_mono. }
    simpl. rewrite (wk_jobs _ _ _ W c c_in), (wk_face _ _ _ W), Hf, N.eqb_refl. destruct (fu_remove (c_upd c) (q_batch q)) as [|y ys] eqn:Er.
    - assert (Hnil : rest = []) by (by eapply map_nil, nil_perm). rewrite Hnil. unfold send_other. cbn [q_other set_q_batch set_q_out]. destruct (q_other q) as [|o os] eqn:Eo.
      + intros H. eapply succeed_inv; [..|exact H]; simpl.
        * by eapply kept_ext; [..|exact K'].
        * destruct Hc as (c0 & Hc & _ & Hx). exists c0. split; [done|]. intros x Hxx. destruct (Hx x Hxx) as [Hn|[Hn|]]; [by apply elem_of_nil in Hn|by apply elem_of_nil in Hn|done].
        * done.
      + intros [= <-]. right. exists j. split; [by eapply kept_ext; [..|exact K']|]. split; simpl; rewrite ?Eo.
        * apply W.
        * apply W.
        * destruct Hc as (c0 & Hc & Hi & Hx). exists c0. split; [done|]. split; [done|]. intros x Hxx. right. destruct (Hx x Hxx) as [Hn|Hn]; [by apply elem_of_nil in Hn|done].
        * intros x Hx. by apply elem_of_nil in Hx.
        * rewrite <-Eo. apply W.
        * constructor.
        * rewrite <-Eo. apply W.
        * intros d [ ->|Hd']%elem_of_cons; [done|]. by apply first_try_in in Hd' as (? & _).
        * rewrite map_map. simpl. by rewrite map_id.
        * done.
        * intros d Hd'. change (first_try j o :: map (first_try j) os) with (map (first_try j) (o :: os)) in Hd'. apply first_try_in in Hd' as (_ & Hd' & ->). rewrite timeouts_other by done.
          rewrite (wk_zero _ _ _ W); [done|done|]. by rewrite Eo.
        * done.
    - intros [= <-]. right. exists j. split; [by eapply kept_ext; [..|exact K']|]. split; simpl.
      + apply W.
      + apply W.
      + done.
      + intros x. rewrite <-Er, elem_of_fu_remove. intros [Hx _]. by apply (wk_batch _ _ _ W).
      + apply W.
      + rewrite <-Er. apply fu_remove_nodup, W.
      + apply W.
      + intros d Hd'. by apply (wk_jobs _ _ _ W), rest_in.
      + by rewrite <-Hrem.
      + intros E. rewrite E in Hrem. simpl in Hrem. symmetry in Hrem. by apply Permutation_nil_cons in Hrem.
      + intros d Hd'. rewrite timeouts_other by done. by apply (wk_times _ _ _ W), rest_in.
      + intros _ x Hx. rewrite timeouts_other by done. by apply (wk_zero _ _ _ W).
  Qed.
  Lemma gone_inv q' :
    fu_face (c_upd c) = job_face j -> length (q_out q) = 1%nat -> fail j (set_q_out rest q) = Some q' -> qinv us (ans ++ [(j, c_upd c, RFaceGone)]) q'.
  Proof using K W Ei.
    intros Hf Hlen H. assert (Hnil : rest = []). { pose proof (Permutation_length out_perm) as L. rewrite Hlen in L. simpl in L. by destruct rest. }
    unfold fail in H. eapply go_inv; [..|exact H]; [|simpl; by rewrite Hnil].
    simpl. eapply (kept_failed _ _ _ _ _ (c_upd c)); [|apply elem_of_app; right; left|done]. eapply kept_ext; [..|eapply kept_answer, K]; done.
  Qed.
  Lemma timeouts_timeout j' x : timeouts j' x (ans ++ [(j, c_upd c, RTimeout)]) = ((if bool_decide (fst j' = fst j /\ x = c_upd c) then 1 else 0) + timeouts j' x ans)%nat.
  Proof using.
    rewrite timeouts_app. unfold timeouts at 2. simpl. unfold is_timeout. simpl. rewrite andb_true_r. destruct (N.eqb_spec (fst j) (fst j')) as [E|E]; simpl.
    - destruct (fu_eqb (c_upd c) x) eqn:Ex.
      + apply fu_eqb_eq in Ex. rewrite bool_decide_true by done. simpl. lia.
      + rewrite bool_decide_false; [simpl; lia|]. intros [_ ->]. by rewrite fu_eqb_refl in Ex.
    - rewrite bool_decide_false; [simpl; lia|]. by intros [? _].
  Qed.
  Lemma timeout_inv : (c_tries c < MAX_NUM_TIMEOUTS)%N ->
    qinv us (ans ++ [(j, c_upd c, RTimeout)]) (set_q_out (rest ++ [Cmd j (c_upd c) true (c_tries c + 1)]) (set_q_out rest q)).
  Proof using K W Ei.
    intros Ht. unfold MAX_NUM_TIMEOUTS in Ht. right. exists j. pose proof pend_nodup as [Hnin _]%NoDup_cons.
    assert (Htc : timeouts j (c_upd c) ans = N.to_nat (c_tries c)) by (apply (wk_times _ _ _ W), c_in). split.
    - eapply kept_ext; [..|]; [done..|]. destruct K as [K1 K2 K3 K4 K5 K6 K7]. split; try done.
      + intros l1 j' l2 E. by eapply carried_mono, K4.
      + intros j' Hj. destruct (K5 j' Hj) as (x & H1 & H2). exists x. split; [|done]. apply elem_of_app. by left.
      + intros j' x. rewrite timeouts_timeout. case_bool_decide as Hb; [|apply K6]. destruct Hb as [Hj ->].
        assert (timeouts j' (c_upd c) ans = timeouts j (c_upd c) ans) as -> by (unfold timeouts, is_timeout; by rewrite Hj). lia.
      + intros j' x Hj. rewrite timeouts_timeout. rewrite bool_decide_false; [by apply K7|]. intros [E _]. apply Hj. rewrite E, map_app. apply elem_of_app. right. left.
    - split; simpl.
      + apply W.
      + apply W.
      + destruct (wk_c _ _ _ W) as (c0 & Hc & Hi & Hx). exists c0. split; [done|]. split; [done|]. intros x [H|[H|H]]%Hx; [by left|by right; left|]. right; right. by apply done_mono.
      + apply W.
      + apply W.
      + apply W.
      + apply W.
      + intros d [Hd| ->%elem_of_list_singleton]%elem_of_app; [|done]. by apply (wk_jobs _ _ _ W), rest_in.
      + rewrite map_app. simpl. rewrite <-Permutation_cons_append. symmetry. apply pend_perm.
      + by destruct rest.
      + intros d [Hd| ->%elem_of_list_singleton]%elem_of_app.
        * rewrite timeouts_timeout, bool_decide_false; [by apply (wk_times _ _ _ W), rest_in|]. intros [_ E]. apply Hnin. rewrite <-E. apply elem_of_list_fmap. by exists d.
        * rewrite timeouts_timeout, bool_decide_true by done. simpl. rewrite Htc. lia.
      + intros Hb x Hx. rewrite timeouts_timeout, bool_decide_false; [by apply (wk_zero _ _ _ W)|]. intros [_ ->].
        apply (wk_other _ _ _ W) in Hx. by apply Hb, in_other.
  Qed.
End Response.

Lemma step_inv us ans e q q' : qinv us ans q -> calm_event q e -> q_step e q = Some q' -> qinv (us ++ submitted e q) (ans ++ answered e q) q'.
Proof.
  intros I Hcalm. destruct e as [u|f|i r]; simpl.
  - rewrite app_nil_r. apply inv1_go, inv1_enqueue, qinv_inv1, I.
  - rewrite app_nil_r. apply inv1_go, inv1_enqueue_all, qinv_inv1, I.
  - rewrite app_nil_r. destruct (q_out q !! i) as [c|] eqn:Ei; [|intros [= <-]; by rewrite app_nil_r].
    destruct I as [(_ & [_ Ho] & _)|(j & K & W)]; [by rewrite Ho in Ei|]. pose proof (wk_jobs _ _ _ W c (c_in q i c Ei)) as Ej. intros H. destruct r.
    + rewrite Ej. destruct (N.eqb_spec (fu_face (c_upd c)) (job_face j)) as [Hf|Hf]; [by eapply batch_done_inv|].
      simpl in H. rewrite (wk_face _ _ _ W), Ej, (proj2 (N.eqb_neq _ _) Hf) in H. eapply other_done_inv; try done. left. apply elem_of_app. right. left.
    + simpl in H. destruct (N.ltb_spec (c_tries c) MAX_NUM_TIMEOUTS) as [Ht|Ht]; [|done]. injection H as <-. rewrite Ej. by apply timeout_inv.
    + simpl in H. rewrite (wk_face _ _ _ W), Ej in H. rewrite Ej. destruct (N.eqb_spec (fu_face (c_upd c)) (job_face j)) as [Hf|Hf].
      * apply (gone_inv us ans j q i c K W Ei q' Hf); [|exact H]. apply (Hcalm c); [done|]. by rewrite Ej.
      * eapply other_done_inv; try done. right. split; [|done]. apply elem_of_app. right. left.
    + done.
Qed.

Lemma watch_snoc {A} (see : qevent -> queue -> list A) l e : watch see (l ++ [e]) =
  match watch see l with Some (w, q) => match q_step e q with Some q' => Some (w ++ see e q, q') | None => None end | None => None end.
Proof. unfold watch. rewrite each_of_app. destruct (each_of _ l _) as [[w q]|]; [|done]. simpl. by destruct (q_step e q). Qed.
Lemma watch_run {A} (see : qevent -> queue -> list A) l w q : watch see l = Some (w, q) -> q_run l = Some q.
Proof.
  revert w q. induction l as [|e l IH] using rev_ind; intros w q; [by intros [= _ <-]|]. rewrite watch_snoc, q_run_snoc. destruct (watch see l) as [[w0 q0]|]; [|done].
  rewrite (IH _ _ eq_refl). destruct (q_step e q0); [|done]. by intros [= _ ->].
Qed.
Lemma run_watch {A} (see : qevent -> queue -> list A) l q : q_run l = Some q -> exists w, watch see l = Some (w, q).
Proof.
  revert q. induction l as [|e l IH] using rev_ind; intros q; [intros [= <-]; by exists []|]. rewrite watch_snoc, q_run_snoc. destruct (q_run l) as [q0|]; [|done].
  destruct (IH _ eq_refl) as [w ->]. intros ->. by eexists.
Qed.
Lemma calm_snoc l e : calm_run (l ++ [e]) -> calm_run l /\ forall q, q_run l = Some q -> calm_event q e.
Proof.
  intros H. split; [|intros q Hq; by eapply (H l e [])]. intros l1 e' l2 q -> Hq. eapply (H l1 e' (l2 ++ [e])); [by rewrite <-app_assoc|done].
Qed.
Lemma run_inv l us ans q : calm_run l -> watch submitted l = Some (us, q) -> watch answered l = Some (ans, q) -> qinv us ans q.
Proof.
  revert us ans q. induction l as [|e l IH] using rev_ind; intros us ans q Hc.
  - intros [= <- <-] [= <-]. left. split; [|done]. split; simpl; try done.
    + split; [by exists []|done].
    + by intros [].
    + intros j Hj. by apply elem_of_nil in Hj.
    + intros j x. unfold timeouts. simpl. lia.
  - apply calm_snoc in Hc as [Hc He]. rewrite !watch_snoc. destruct (watch submitted l) as [[us0 q0]|] eqn:Eu; [|done]. pose proof (watch_run _ _ _ _ Eu) as Hrun.
    destruct (run_watch answered l q0 Hrun) as [ans0 Ea]. rewrite Ea. destruct (q_step e q0) as [q1|] eqn:Es; [|done]. intros [= <- <-] [= <-].
    eapply step_inv; [|by apply He|done]. by apply IH.
Qed.
