(** C57: readvertising. *)
From stdpp Require Import gmap.
From Verif Require Import Lib Name_Model Name_Proof Rib_Model Rib_Hier Rib_Inv Rib_Props Readv_Model Readv_Spec Readv_Proof Readv_Run Readv_All.

(** * Every run *)
Lemma up_step pol e v v' : v_step pol e v = Some v' -> v_avail v' = match e with VAvail b => b | _ => v_avail v end.
Proof.
  assert (Ha : forall id w w', advertise id w = Some w' -> v_avail w' = v_avail w) by (intros id w w' (_ & _ & H & _)%advertise_sees; done).
  assert (Hw : forall id w w', withdraw id w = Some w' -> v_avail w' = v_avail w) by (intros id w w' (_ & _ & H & _)%(withdraw_sees pol); done).
  destruct e as [k c|k|b|i ok|p]; simpl.
  - unfold after_add. destruct (p_handle pol k c) as [a|]; [|by intros [= ->]]. destruct (List.find _ (v_rrs v)) as [r0|]; simpl; (destruct (List.find _ (v_map v)); [done|]); intros (r & F & E)%obind_inv;
      (destruct (0 <? rr_n r)%N; [by injection E as <-|]); by apply Ha in E.
  - unfold before_remove. destruct (List.find _ (v_map v)) as [[k0 id]|]; [|by intros [= ->]]. intros (r & F & E)%obind_inv. destruct (0 <? rr_n r - 1)%N; [by injection E as <-|]. by apply Hw in E.
  - unfold set_availability. destruct (Bool.eqb b (v_avail v)) eqn:Eb; [apply eqb_prop in Eb; intros [= <-]; done|]. destruct b; [|by intros [= <-]]. by intros (_ & _ & -> & _)%(adv_each pol).
  - destruct (v_out v !! i) as [c|]; [|by intros [= ->]]. intros (r & F & E)%obind_inv. injection E as <-. by destruct (s_op c), ok.
  - destruct (List.find _ (v_rrs v)) as [r|]; [|by intros [= ->]]. destruct (rr_timer r) as [[[] d]|]; [..|by intros [= ->]]; intros E; [by apply Ha in E|by apply Hw in E].
Qed.
Lemma up_run pol l v : v_run pol l = Some v -> v_avail v = up_of l.
Proof.
  revert v. induction l as [|e l IH] using rev_ind; intros v E; [by injection E as <-|]. unfold v_run in E, IH. rewrite each_of_app in E. destruct (each_of (v_step pol) l rv_empty) as [v1|] eqn:E1; [|done].
  simpl in E. destruct (v_step pol e v1) as [v2|] eqn:E2; [|done]. injection E as <-. unfold up_of. rewrite fold_left_app. simpl. rewrite (up_step _ _ _ _ E2). destruct e; try done; by apply IH.
Qed.

(** Whatever happens, each advertisement the destination sees carries the signer that the policy
    chose for the newest route with that prefix, and the cost of some route with that prefix.  What was
    sent before is never taken back. *)
Theorem C57_asked pol l e v v' :
  v_run pol l = Some v -> v_step pol e v = Some v' ->
  exists new, v_seen v' = v_seen v ++ new /\
    forall p c s, SeenAdvertise p c s ∈ new -> signer_of pol (l ++ [e]) p = Some s /\ asked pol (l ++ [e]) p c.
Proof.
  intros E1 E2. destruct (all_sees pol l e v v' E1 E2) as (new & En & H). exists new. split; [done|]. intros p c s Hin. destruct (H p c s Hin) as (r & Hr & <- & <- & <-).
  destruct (all_ok pol _ _ (run_snoc _ _ _ _ _ E1 E2)) as [_ Hall]. by destruct (Hall r Hr).
Qed.
Print Assumptions C57_asked.

(** Whatever happens, a failed command is tried again after at least 100 seconds and at most an hour,
    and the only other timer is the refresh of an advertisement. *)
Theorem C57_delay pol l v :
  v_run pol l = Some v ->
  forall r o d, r ∈ v_rrs v -> rr_timer r = Some (o, d) -> (o = Advertise /\ d = p_refresh pol) \/ (100000 <= d <= 3600000)%N.
Proof. intros E r o d Hr Et. destruct (all_ok pol l v E) as [_ H]. destruct (H r Hr) as [_ [_ G]]. unfold timer_ok in G. rewrite Et in G. exact G. Qed.
Print Assumptions C57_delay.

(** A failure doubles the delay up to an hour and arms the timer with it; a success of an
    advertisement arms the refresh and makes the next delay start at 50 seconds; a success of a withdrawal
    forgets the prefix.  Nothing else changes, and nothing is sent. *)
Theorem C57_response pol l v i c ok v' :
  v_run pol l = Some v -> v_out v !! i = Some c -> v_step pol (VRespond i ok) v = Some v' ->
  v_seen v' = v_seen v /\ v_map v' = v_map v /\ v_out v' = take i (v_out v) ++ drop (S i) (v_out v) /\
  exists r, r ∈ v_rrs v /\ rr_id r = s_rr c /\
    (forall x, rr_id x <> s_rr c -> x ∈ v_rrs v' <-> x ∈ v_rrs v) /\
    (forall x, rr_id x = s_rr c -> x ∈ v_rrs v' <->
       match s_op c, ok with
       | Withdraw, true => False
       | Advertise, true => x = RR (rr_id r) (rr_prefix r) (rr_cost r) (rr_signer r) (rr_n r) 50000 (Some (Advertise, p_refresh pol))
       | o, false => let d := N.min 3600000 (2 * rr_delay r) in x = RR (rr_id r) (rr_prefix r) (rr_cost r) (rr_signer r) (rr_n r) d (Some (o, d))
       end).
Proof.
  intros E1 Ei E. destruct (all_ok pol l v E1) as [[B1 B2 B3] _]. simpl in E. rewrite Ei in E. apply obind_inv in E as (r & F & E). injection E as E. apply find_id_iff in F as [Hr Eid]; [|done].
  assert (Hon : forall f x, (forall y, rr_id (f y) = rr_id y) -> x ∈ map (fun y => if has_id (s_rr c) y then f y else y) (v_rrs v) <-> (rr_id x <> s_rr c /\ x ∈ v_rrs v) \/ x = f r).
  { intros f x Hf. rewrite elem_of_list_fmap. split.
    - intros (y & -> & Hy). destruct (has_id (s_rr c) y) eqn:Ey; [right|left; split; [by apply N.eqb_neq|done]]. apply N.eqb_eq in Ey. f_equal. apply (nodup_map_inj rr_id (v_rrs v)); try done. congruence.
    - intros [[Hne Hx]| ->]; [exists x|exists r].
      + unfold has_id. apply N.eqb_neq in Hne. by rewrite Hne.
      + unfold has_id. by rewrite Eid, N.eqb_refl. }
  assert (Hfin : forall f, v' = on_id (s_rr c) f (set_vout (take i (v_out v) ++ drop (S i) (v_out v)) v) -> (forall y, rr_id (f y) = rr_id y) ->
    v_seen v' = v_seen v /\ v_map v' = v_map v /\ v_out v' = take i (v_out v) ++ drop (S i) (v_out v) /\
    exists r0, r0 ∈ v_rrs v /\ rr_id r0 = s_rr c /\ (forall x, rr_id x <> s_rr c -> x ∈ v_rrs v' <-> x ∈ v_rrs v) /\ (forall x, rr_id x = s_rr c -> x ∈ v_rrs v' <-> x = f r0) /\ r0 = r).
  { intros f -> Hf. split; [done|]. split; [done|]. split; [done|]. exists r. split; [done|]. split; [done|]. split; [|split; [|done]].
    - intros x Hx. simpl. rewrite (Hon f x Hf). split; [intros [[_ ?]| ->]; [done|]; by rewrite Hf, Eid in Hx|]. by left.
    - intros x Hx. simpl. rewrite (Hon f x Hf). split; [intros [[? _]|?]; done|by right]. }
  destruct (s_op c), ok.
  - destruct (Hfin _ (eq_sym E) (fun y => eq_refl)) as (S1 & S2 & S3 & r0 & Hr0 & S4 & S5 & S6 & ->). split; [done|]. split; [done|]. split; [done|]. by exists r.
  - destruct (Hfin _ (eq_sym E) (fun y => eq_refl)) as (S1 & S2 & S3 & r0 & Hr0 & S4 & S5 & S6 & ->). split; [done|]. split; [done|]. split; [done|]. exists r. split; [done|]. split; [done|]. split; [done|].
    intros x Hx. rewrite (S6 x Hx). unfold failed. simpl. unfold with_timer, with_delay, RETRY_DELAY_MAX. simpl. by rewrite (N.mul_comm (rr_delay r) 2).
  - subst v'. split; [done|]. split; [done|]. split; [done|]. exists r. split; [done|]. split; [done|]. simpl. split.
    + intros x Hx. rewrite in_lfilter, negb_true_iff. unfold has_id. rewrite N.eqb_neq. tauto.
    + intros x Hx. rewrite in_lfilter, negb_true_iff. unfold has_id. rewrite N.eqb_neq. tauto.
  - destruct (Hfin _ (eq_sym E) (fun y => eq_refl)) as (S1 & S2 & S3 & r0 & Hr0 & S4 & S5 & S6 & ->). split; [done|]. split; [done|]. split; [done|]. exists r. split; [done|]. split; [done|]. split; [done|].
    intros x Hx. rewrite (S6 x Hx). unfold failed. simpl. unfold with_timer, with_delay, RETRY_DELAY_MAX. simpl. by rewrite (N.mul_comm (rr_delay r) 2).
Qed.
Print Assumptions C57_response.

(** The policy of a client towards NLSR: the routes that clients registered, as they are. *)
Theorem C57_nlsr n face origin cost :
  p_handle client_to_nlsr (n, face, origin) cost = if (origin =? 65)%N then Some (Action n cost 0) else None.
Proof. done. Qed.
Print Assumptions C57_nlsr.

Section Host.
  Context (localhost localhop_nfd : name) (nrd : comp) (refresh : N).
  Local Notation ip := (identity_prefix nrd).
  Local Notation handle := (p_handle (host_to_gateway localhost localhop_nfd nrd refresh _)).

  Lemma pick_ok ids n p0 o0 : p0 `prefix_of` n ->
    let st := fold_left (pick nrd) ids (p0, o0) in
    fst st `prefix_of` p0 /\ (forall i, i ∈ ids -> ip (snd i) `prefix_of` p0 -> fst st `prefix_of` ip (snd i)) /\
    ((st = (p0, o0) /\ forall i, i ∈ ids -> ~ ip (snd i) `prefix_of` p0) \/ exists i, i ∈ ids /\ snd st = Some (fst i) /\ fst st = ip (snd i)).
  Proof.
    revert p0 o0. induction ids as [|i ids IH]; intros p0 o0 Hp; simpl.
    { split; [done|]. split; [intros i []%elem_of_nil|]. left. split; [done|]. intros i []%elem_of_nil. }
    assert (Est : pick nrd (p0, o0) i = if name_prefixb (ip (snd i)) p0 then (ip (snd i), Some (fst i)) else (p0, o0)) by done. rewrite Est. clear Est. destruct (name_prefixb (ip (snd i)) p0) eqn:Ei.
    - apply name_prefixb_prefix in Ei. destruct (IH (ip (snd i)) (Some (fst i))) as (H1 & H2 & H3); [by etransitivity|]. split; [by etransitivity|]. split.
      + intros j [->|Hj]%elem_of_cons Hjp; [done|]. destruct (prefix_weak_total (ip (snd j)) (ip (snd i)) p0 Hjp Ei) as [Hji|Hij]; [by apply H2|by etransitivity].
      + right. destruct H3 as [[-> _]|(j & Hj & H3)]; [exists i; split; [left|done]|exists j; split; [by right|done]].
    - assert (Hn : ~ ip (snd i) `prefix_of` p0) by (intros Hx%name_prefixb_prefix; congruence). destruct (IH p0 o0 Hp) as (H1 & H2 & H3). split; [done|]. split.
      + intros j [->|Hj]%elem_of_cons Hjp; [done|by apply H2].
      + destruct H3 as [[E H3]|(j & Hj & H3)]; [left|right].
        * split; [done|]. by intros j [->|Hj]%elem_of_cons; [|apply H3].
        * exists j. split; [by right|done].
  Qed.
  (** The policy of a host towards its gateway: a route under /localhost or at /localhop/nfd is never
      readvertised; another is readvertised exactly when an identity, less a final "nrd", is a prefix of
      its name, as the shortest such prefix, with the cost of the route, signed by an identity with that prefix. *)
  Theorem C57_gateway (ids : list (N * name)) n face origin cost :
    match p_handle (host_to_gateway localhost localhop_nfd nrd refresh ids) (n, face, origin) cost with
    | None => localhost `prefix_of` n \/ n = localhop_nfd \/ forall i, i ∈ ids -> ~ ip (snd i) `prefix_of` n
    | Some a =>
        ~ localhost `prefix_of` n /\ n <> localhop_nfd /\ a_cost a = cost /\ a_prefix a `prefix_of` n /\
        (exists i, i ∈ ids /\ fst i = a_signer a /\ ip (snd i) = a_prefix a) /\
        (forall i, i ∈ ids -> ip (snd i) `prefix_of` n -> (length (a_prefix a) <= length (ip (snd i)))%nat)
    end.
  Proof.
    simpl. destruct (name_prefixb localhost n) eqn:E1; simpl; [left; by apply name_prefixb_prefix|]. destruct (name_eqb n localhop_nfd) eqn:E2; [right; left; by apply name_eqb_eq|].
    assert (H0 : n `prefix_of` n) by done. destruct (pick_ok ids n n None H0) as (H1 & H2 & H3). destruct (fold_left (pick nrd) ids (n, None)) as [p [s|]]; simpl in *.
    - destruct H3 as [[? _]|(i & Hi & [= ->] & ->)]; [done|]. split; [intros Hx%name_prefixb_prefix; congruence|]. split; [intros Hx%name_eqb_eq; congruence|]. split; [done|]. split; [done|]. split; [by exists i|].
      intros j Hj Hp. by apply prefix_length, H2.
    - destruct H3 as [[_ H3]|(i & _ & ? & _)]; [by right; right|done].
  Qed.
  (** an identity's prefix is its name without the last component if that is "nrd" *)
  Theorem C57_identity n : (forall q, n = q ++ [nrd] -> ip n = q) /\ ((forall q, n <> q ++ [nrd]) -> ip n = n).
  Proof.
    unfold identity_prefix. destruct n as [|c q _] using rev_ind; [split; [by intros [|] ?|done]|]. rewrite map_app. simpl. rewrite List.last_last. split.
    - intros q' [-> ->]%app_inj_2; [|done]. rewrite name_eqb_refl, app_length. simpl. replace (length q' + 1 - 1)%nat with (length q') by lia. by rewrite take_app.
    - intros H. rewrite name_eqb_neq'; [done|]. intros [= ->]. by apply (H q).
  Qed.
End Host.
Print Assumptions C57_gateway.
Print Assumptions C57_identity.

(** * Calm runs *)
(** In a run where a prefix gains its first route, loses its last route or has its timer expire only
    when no command about it is unanswered, where the destination does not go away while a withdrawal is
    unanswered, and where no route is added twice: no assertion fails and no erased node is used; the
    last thing an available destination saw about a prefix is an advertisement exactly when some route
    is to be readvertised as it; and of each prefix that has a route, or still has to be withdrawn, a
    command is under way or a timer is set to send one. *)
Theorem C57_calm_partial pol l :
  calm_run pol l ->
  exists v, v_run pol l = Some v /\ v_avail v = up_of l /\
    (up_of l = true -> forall p,
       (is_advertise (last_seen (v_seen v) p) = true <-> n_routes (routes_of pol l) p <> 0%nat) /\
       (n_routes (routes_of pol l) p <> 0%nat -> in_flight v Advertise p \/ timed v Advertise p)) /\
    (forall p r, r ∈ v_rrs v -> rr_prefix r = p -> n_routes (routes_of pol l) p = 0%nat -> up_of l = true /\ (in_flight v Withdraw p \/ timed v Withdraw p)) /\
    (forall o p, in_flight v o p -> (o = Withdraw <-> n_routes (routes_of pol l) p = 0%nat)).
Proof.
  intros Hc. destruct (calm_ok pol l Hc) as (v & E & I). exists v. split; [done|]. pose proof (up_run pol l v E) as Eu. split; [done|]. rewrite <-Eu.
  assert (Hfl : forall p, ops (v_out v) p <> [] -> forall o, (forall o', o' ∈ ops (v_out v) p -> o' = o) -> in_flight v o p).
  { intros p Hne o Ho. destruct (ops (v_out v) p) as [|o' os] eqn:Eo; [done|]. rewrite <-(Ho o' ltac:(left)). assert (K : o' ∈ ops (v_out v) p) by (rewrite Eo; left). by apply ops_elem in K. }
  split; [|split].
  - intros Ha p. split.
    + rewrite (rv_seen _ _ _ I p) by (by rewrite Ha). rewrite negb_true_iff. apply Nat.eqb_neq.
    + intros Hnz. destruct (rinv_node_of _ _ _ _ I Hnz) as (r & Hr & <-). pose proof (rv_node _ _ _ I r Hr) as Hok. destruct (no_live _ _ _ _ Hok Hnz) as [Hne|[d Ht]]; [by rewrite Ha|left|right].
      * apply Hfl; [done|]. intros o Ho. rewrite (no_ops _ _ _ _ Hok o Ho). by rewrite (proj2 (Nat.eqb_neq _ _) Hnz).
      * by exists r, d.
  - intros p r Hr <- Hz. pose proof (rv_node _ _ _ I r Hr) as Hok. destruct (no_zero _ _ _ _ Hok Hz) as (Ha & _ & [Hne|[d Ht]]); rewrite andb_true_r in Ha; (split; [done|]); [left|right].
    + apply Hfl; [done|]. intros o Ho. rewrite (no_ops _ _ _ _ Hok o Ho), Hz. done.
    + by exists r, d.
  - intros o p Hfo. assert (Ho : o ∈ ops (v_out v) p) by (by apply ops_elem). destruct Hfo as (c & Hcin & _ & <-). destruct (rv_out _ _ _ I c Hcin) as (r & Hr & _ & Ep). rewrite <-Ep in *.
    rewrite (no_ops _ _ _ _ (rv_node _ _ _ I r Hr) o Ho). destruct (Nat.eqb_spec (n_routes (routes_of pol l) (rr_prefix r)) 0); done.
Qed.
Print Assumptions C57_calm_partial.

(** When the timer of a prefix expires and nothing about it is under way, the command it was set for is sent. *)
Theorem C57_timer_partial pol l v o p :
  calm_run pol l -> v_run pol l = Some v -> quiet v p -> timed v o p -> up_of l = true ->
  exists v' c s, v_step pol (VTimer p) v = Some v' /\ in_flight v' o p /\
    v_seen v' = v_seen v ++ [match o with Advertise => SeenAdvertise p c s | Withdraw => SeenWithdraw p end].
Proof.
  intros Hc E Hq (r & d & Hr & <- & Et) Hup. destruct (calm_ok pol l Hc) as (v0 & E0 & I). assert (v0 = v) as -> by congruence. pose proof (up_run pol l v E) as Eu. rewrite Hup in Eu.
  destruct (timer_step pol _ _ v I Hq) as (v' & Ev & I'). exists v', (rr_cost r), (rr_signer r). split; [done|]. simpl in Ev.
  rewrite (proj2 (find_pfx_iff (v_rrs v) (rr_prefix r) r (rv_pfx _ _ _ I)) (conj Hr eq_refl)), Et in Ev. set (v1 := on_id _ _ v) in *.
  assert (F1 : find_id (rr_id r) v1 = Some (with_timer None r)) by (apply find_on_id; [apply I|done|done]).
  destruct o; [unfold advertise in Ev|unfold withdraw in Ev]; rewrite F1 in Ev; cbn [obind] in Ev; destruct (rr_n (with_timer None r) =? 0)%N; try done; cbn [negb] in Ev; try done;
    change (v_avail v1) with (v_avail v) in Ev; rewrite Eu in Ev; injection Ev as <-; (split; [|done]); eexists; (split; [apply elem_of_app; right; left|done]).
Qed.
Print Assumptions C57_timer_partial.

(** * Other runs *)
Definition k1 : rkey := (nm [1], 11, 65)%N.
Definition k2 : rkey := (nm [1], 12, 65)%N.
(** A route is removed and added again while the withdrawal is unanswered.  The success of the
    withdrawal then forgets the prefix although it has a route; the answer to the second advertisement,
    or the removal of the route, uses the erased node. *)
Definition again : list vevent := [VAvail true; VAdd k1 3; VRespond 0 true; VRemove k1; VAdd k1 3; VRespond 0 true].
Theorem C57_defined_refuted : ~ forall l, NoDup (map fst (routes_of client_to_nlsr l)) -> v_run client_to_nlsr l <> None.
Proof. intros H. apply (H (again ++ [VRespond 0 true])); [|by vm_compute]. vm_compute. repeat constructor; set_solver. Qed.
Print Assumptions C57_defined_refuted.
(** The refresh timer is not cancelled when the last route goes away: it asserts that there is a route. *)
Theorem C57_refresh_refuted : ~ forall l k p, (forall ok i, VRespond i ok ∈ l -> ok = true) -> v_run client_to_nlsr l <> None -> v_run client_to_nlsr (l ++ [VRemove k]) <> None -> v_run client_to_nlsr (l ++ [VRemove k; VTimer p]) <> None.
Proof.
  intros H. apply (H [VAvail true; VAdd k1 3; VRespond 0 true] k1 (nm [1]%N)); try by vm_compute.
  intros ok i Hin. rewrite !elem_of_cons in Hin. destruct Hin as [?|[?|[[= _ ->]|?%elem_of_nil]]]; done.
Qed.
Print Assumptions C57_refresh_refuted.
(** A destination that goes away while a withdrawal is unanswered: the answer uses the erased node. *)
Theorem C57_away_refuted : ~ forall l i ok, v_run client_to_nlsr (l ++ [VAvail false]) <> None -> v_run client_to_nlsr (l ++ [VAvail false; VRespond i ok]) <> None.
Proof. intros H. apply (H [VAvail true; VAdd k1 3; VRespond 0 true; VRemove k1] 0%nat false); by vm_compute. Qed.
Print Assumptions C57_away_refuted.
(** After such a run a prefix can be withdrawn although a route is to be readvertised as it, and
    nothing is left to advertise it again. *)
Theorem C57_wanted_refuted : ~ forall l v p, v_run client_to_nlsr l = Some v -> up_of l = true -> n_routes (routes_of client_to_nlsr l) p <> 0%nat -> v_out v = [] -> timed v Advertise p.
Proof.
  intros H. pose (l := [VAvail true; VAdd k1 3; VRespond 0 true; VRemove k1; VAdd k1 3; VRespond 1 true; VRespond 0 true]).
  assert (E : exists v, v_run client_to_nlsr l = Some v /\ v_out v = [] /\ v_rrs v = []) by (eexists; by vm_compute). destruct E as (v & E & Eo & Er).
  destruct (H l v (nm [1]%N) E) as (r & d & Hr & _); [done|by vm_compute|done|]. rewrite Er in Hr. by apply elem_of_nil in Hr.
Qed.
Print Assumptions C57_wanted_refuted.

(** * Examples *)
(** two routes share a prefix; one goes, then the other; an answer fails *)
Definition day : list vevent := [VAdd k1 3; VAvail true; VAdd k2 9; VRespond 0 false; VTimer (nm [1]%N); VRespond 0 true; VRemove k1; VRemove k2; VRespond 0 false; VTimer (nm [1]%N); VRespond 0 true].
Lemma calm_from_check pol l (chk : list (rkey * action) -> rv -> vevent -> bool) :
  (forall A v e, chk A v e = true -> calm_event pol A v e) ->
  (fix go A v l := match l with [] => true | e :: l => chk A v e && match v_step pol e v with Some v' => go (routes_step pol A e) v' l | None => false end end) [] rv_empty l = true -> calm_run pol l.
Proof.
  intros Hchk H l1 e l2 v El Ev. unfold v_run, routes_of in *. revert H Ev. generalize ([] : list (rkey * action)) as A. generalize rv_empty as w. revert l El. induction l1 as [|e1 l1 IH]; intros l El w A; subst l; simpl.
  - intros [H _]%andb_true_iff [= ->]. by apply Hchk.
  - intros [_ H]%andb_true_iff. destruct (v_step pol e1 w) as [w'|]; [|done]. by apply (IH (l1 ++ e :: l2)).
Qed.
Definition quietb (v : rv) (p : name) : bool := forallb (fun c => negb (name_eqb (s_prefix c) p)) (v_out v).
Definition calmb (pol : policy) (A : list (rkey * action)) (v : rv) (e : vevent) : bool :=
  match e with
  | VAdd k c => match p_handle pol k c with Some a => forallb (fun x => negb (rkey_eqb (fst x) k)) A && (negb (n_routes A (a_prefix a) =? 0)%nat || quietb v (a_prefix a)) | None => true end
  | VRemove k => forallb (fun x => negb (rkey_eqb (fst x) k) || (1 <? n_routes A (a_prefix (snd x)))%nat || quietb v (a_prefix (snd x))) A
  | VAvail b => b || forallb (fun c => match s_op c with Advertise => true | Withdraw => false end) (v_out v)
  | VRespond _ _ => true
  | VTimer p => quietb v p
  end.
Lemma quietb_ok v p : quietb v p = true -> quiet v p.
Proof. unfold quietb. rewrite forallb_forall. intros H o (c & Hc & _ & Ep). apply elem_of_list_In, H in Hc. by rewrite Ep, name_eqb_refl in Hc. Qed.
Lemma calmb_ok pol A v e : calmb pol A v e = true -> calm_event pol A v e.
Proof.
  destruct e as [k c|k|b|i ok|p]; simpl.
  - intros H a Ea. rewrite Ea in H. apply andb_true_iff in H as [H1 H2]. rewrite forallb_forall in H1. split.
    + intros (x & -> & Hx)%elem_of_list_fmap. apply elem_of_list_In, H1 in Hx. apply negb_true_iff, rkey_eqb_neq in Hx. done.
    + apply orb_true_iff in H2 as [H2|H2]; [left|right; by apply quietb_ok]. by apply negb_true_iff, Nat.eqb_neq in H2.
  - rewrite forallb_forall. intros H a Ha. apply elem_of_list_In, H in Ha. simpl in Ha. rewrite (proj2 (rkey_eqb_eq k k) eq_refl) in Ha. simpl in Ha. apply orb_true_iff in Ha as [Ha|Ha]; [left; by apply Nat.ltb_lt|right; by apply quietb_ok].
  - intros [H|H]%orb_true_iff; [by left|]. right. rewrite forallb_forall in H. intros p (c & Hc & Eo & _). apply elem_of_list_In, H in Hc. by rewrite Eo in Hc.
  - done.
  - apply quietb_ok.
Qed.
Example day_calm : calm_run client_to_nlsr day.
Proof. apply (calm_from_check _ _ (calmb client_to_nlsr)); [apply calmb_ok|by vm_compute]. Qed.
Example day_ex : exists v, v_run client_to_nlsr day = Some v /\ v_rrs v = [] /\
  v_seen v = [SeenUp; SeenAdvertise (nm [1]%N) 3 0; SeenAdvertise (nm [1]%N) 3 0; SeenWithdraw (nm [1]%N); SeenWithdraw (nm [1]%N)]%N.
Proof. eexists. split; [by vm_compute|]. by vm_compute. Qed.
Example day_timer_ex : exists v, v_run client_to_nlsr (take 4 day) = Some v /\ timed v Advertise (nm [1]%N) /\ quiet v (nm [1]%N) /\ up_of (take 4 day) = true.
Proof.
  eexists. split; [by vm_compute|]. split; [|split; [apply quietb_ok; by vm_compute|done]]. eexists _, 100000%N. split; [left|done].
Qed.
(** identities /1/nrd (number 5) and /1/2 (number 6): /1/2/3 goes out as /1 *)
Definition nrd : comp := (8, [110; 114; 100])%N.
Example gateway_ex :
  option_map (fun a => (a_prefix a, a_cost a, a_signer a)) (p_handle (host_to_gateway (nm [100]%N) (nm [101; 102]%N) nrd 25000 [(6, nm [1; 2]); (5, nm [1] ++ [nrd])]%N) (nm [1; 2; 3], 9, 0)%N 4) = Some (nm [1], 4, 5)%N /\
  p_handle (host_to_gateway (nm [100]%N) (nm [101; 102]%N) nrd 25000 [(7, [])]%N) (nm [100; 1], 9, 0)%N 4 = None.
Proof. by vm_compute. Qed.
