(** C68, C69: the RIB manager. *)
From stdpp Require Import gmap.
From Verif Require Import Lib Name_Model Name_Proof Nt_Model Tab_Model Rib_Model Rib_Spec RibQueue_Model RibQueue_Spec Rib_Tree Rib_Hier Rib_Inv Rib_Props RibFib_Look RibFib_Props RibQueue_Proof Rm_Model Rm_Spec Rm_Proof Rm_Run.

(** ** Every event *)
Lemma ns_some t x : ns t = Some x <-> x = t /\ countable t.
Proof.
  unfold ns, countable. change (2 ^ 63)%Z with (NS_MAX + 1)%Z. destruct (_ && _) eqn:E.
  - apply andb_true_iff in E as [E1%Z.leb_le E2%Z.leb_le]. split; [intros [= <-]; split; [done|lia]|intros [-> _]; done].
  - apply andb_false_iff in E as [E%Z.leb_gt|E%Z.leb_gt]; (split; [done|intros [_ ?]; lia]).
Qed.
Lemma expires_of_spec now p t : expires_of now p = Some t <->
  match p with
  | None => t = None
  | Some d => if bool_decide (d = 2 ^ 63 - 1)%Z then t = None else t = Some (now + d * 1000000)%Z /\ countable (d * 1000000) /\ countable (now + d * 1000000)
  end.
Proof.
  unfold expires_of. destruct p as [d|]; [|split; [by intros [= <-]|by intros ->]]. change (2 ^ 63 - 1)%Z with NS_MAX. destruct (Z.eqb_spec d NS_MAX) as [->|Hd].
  - rewrite bool_decide_true by done. split; [by intros [= <-]|by intros ->].
  - rewrite bool_decide_false by done. split.
    + intros (x & Hx & (y & Hy & [= <-])%obind_some)%obind_some. apply ns_some in Hx as [-> Hx]. apply ns_some in Hy as [-> Hy]. done.
    + intros (-> & H1 & H2). assert (ns (d * MS) = Some (d * 1000000)%Z) as -> by (by apply ns_some). simpl. assert (ns (now + d * 1000000) = Some (now + d * 1000000)%Z) as -> by (by apply ns_some). done.
Qed.
Lemma ann_expires_spec now sys pa e : ann_expires now sys pa = Some e <-> ann_ends now sys pa e /\ countable (pa_expiration pa * 1000000) /\ countable e.
Proof.
  unfold ann_expires, ann_ends. set (v := match pa_validity pa with None => _ | _ => _ end).
  assert (Hv : countable (pa_expiration pa * 1000000) -> match pa_validity pa with
                   | None => e = (now + pa_expiration pa * 1000000)%Z
                   | Some (a, b) => ((a <= sys <= b)%Z -> e = (now + Z.min (b - sys) (pa_expiration pa * 1000000))%Z) /\ (~ (a <= sys <= b)%Z -> e = (now + Z.min 0 (pa_expiration pa * 1000000))%Z)
                   end <-> e = (now + Z.min v (pa_expiration pa * 1000000))%Z).
  { unfold countable, v. intros Hc. destruct (pa_validity pa) as [[a b]|].
    - destruct (Z.leb_spec a sys), (Z.leb_spec sys b); cbn [andb]; split; intros H'; try (split; intros; lia); destruct H' as [H1 H2]; first [apply H1; lia|apply H2; lia].
    - rewrite Z.min_r; [done|]. change (2 ^ 63)%Z with (NS_MAX + 1)%Z in Hc. lia. }
  split.
  - intros (x & Hx & Hy)%obind_some. apply ns_some in Hx as [-> Hx]. apply ns_some in Hy as [-> Hy]. split; [by apply Hv|]. done.
  - intros (H1 & H2 & H3). assert (ns (pa_expiration pa * MS) = Some (pa_expiration pa * 1000000)%Z) as -> by (by apply ns_some). simpl. apply Hv in H1; [|done]. subst e. by apply ns_some.
Qed.
Lemma add_update_until now n f o c fl t : add_update_of now n (Route f o c fl t) = until now n f o c fl t.
Proof. unfold add_update_of, until. cbn [r_expires]. f_equal. destruct t as [t|]; [|done]. destruct (Z.leb_spec t now); [by rewrite bool_decide_true|rewrite bool_decide_false; [done|lia]]. Qed.
Lemma with_face_meant f p : with_face f p = Params (p_name p) (meant f (p_face p)) (p_origin p) (p_cost p) (p_flags p) (p_period p).
Proof. unfold with_face, meant. by destruct (p_face p). Qed.
Lemma obind_pair {A B C} (o : option (A * B)) (g : A * B -> option C) c : obind o g = Some c -> exists a b, o = Some (a, b) /\ g (a, b) = Some c.
Proof. destruct o as [[a b]|]; [|done]. by exists a, b. Qed.

(** an update that carries an announcement is the registration of the announced name, for no longer than the announcement
    is valid *)
Definition ann_ok (M : mgr) : Prop :=
  forall i pa e, m_ann M i = Some (pa, e) -> exists f t, is_job M i (RibUpdate Register (pa_name pa) (pa_route f t)) /\ (t <= e)%Z.
Definition good (M : mgr) : Prop := minv M /\ ann_ok M.
Lemma is_job_app M M' us i u : m_jobs M' = m_jobs M ++ us -> is_job M i u -> is_job M' i u.
Proof. unfold is_job. intros ->. apply lookup_app_l_Some. Qed.
Lemma ann_ok_app M M' us : m_jobs M' = m_jobs M ++ us -> m_ann M' = m_ann M -> ann_ok M -> ann_ok M'.
Proof. intros E1 E2 H i pa e. rewrite E2. intros Hi. apply H in Hi as (f & t & H1 & H2). exists f, t. split; [by eapply is_job_app|done]. Qed.
Lemma ann_ok_add n r a M M' res : good M -> add_route n r a M = Some (M', res) ->
  (forall pa e, a = Some (pa, e) -> n = pa_name pa /\ exists f t, r = pa_route f t /\ (t <= e)%Z) -> good M'.
Proof.
  intros [I A] H Ha. destruct (add_route_fine _ _ _ _ _ _ I H) as (I' & [_ Ej] & _ & Ea). split; [done|]. intros i pa e. rewrite Ea. destruct (ru_action _) eqn:Eact.
  - destruct (N.eqb_spec i (q_next (m_q M))) as [->|Hn].
    + intros Hp. apply Ha in Hp as (-> & f & t & -> & Ht). exists f, t. split; [|done]. unfold is_job. rewrite Ej, (mi_next _ I), Nat2N.id, lookup_app_r by lia. rewrite Nat.sub_diag. simpl. f_equal.
      unfold add_update_of in *. cbn [ru_action r_expires pa_route] in *. by rewrite Eact.
    + intros Hp. apply A in Hp as (f & t & H1 & H2). exists f, t. split; [by eapply is_job_app|done].
  - intros Hp. apply A in Hp as (f & t & H1 & H2). exists f, t. split; [by eapply is_job_app|done].
  - intros Hp. apply A in Hp as (f & t & H1 & H2). exists f, t. split; [by eapply is_job_app|done].
Qed.
Lemma ann_of_route M n r pa e : good M -> route_in M n (r_face r) (r_origin r) = Some r -> ann_of M n r = Some (pa, e) ->
  pa_name pa = n /\ exists t, r = pa_route (r_face r) t /\ (t <= e)%Z.
Proof.
  intros [I A] Hr Ha. unfold ann_of, rkey_of in Ha. pose proof (mi_owner _ I n (r_face r) (r_origin r)) as Ho. destruct (m_owner M _) as [i|]; [|done].
  destruct Ho as (r' & J & _ & _ & _ & Hr'). rewrite Hr in Hr'. injection Hr' as <-. apply A in Ha as (f & t & J' & Ht). pose proof (is_job_inj _ _ _ _ J J') as [= -> ->]. split; [done|]. by exists t.
Qed.
Lemma rib_find_route R n f o : rib_find n f o R = route_at R n f o.
Proof. unfold rib_find, route_at, routes_at, find_route, same_route. by destruct (rb_map R !! n). Qed.
Lemma route_at_key R n f o r : route_at R n f o = Some r -> r_face r = f /\ r_origin r = o.
Proof. unfold route_at. intros [_ H]%find_some. apply andb_true_iff in H as [H1%N.eqb_eq H2%N.eqb_eq]. done. Qed.
Lemma find_longest_at R n f o p r : find_longest n f o R = Some (p, r) -> route_at R p f o = Some r.
Proof.
  unfold find_longest. rewrite rib_find_route. destruct (route_at R n f o) eqn:E; [by intros [= <- <-]|]. destruct (find_parent _ _) as [q|]; [|done]. rewrite rib_find_route. destruct (route_at R q f o) eqn:E2; [|done]. by intros [= <- <-].
Qed.
Lemma step_good e M M' out : good M -> m_step e M = Some (M', out) -> good M'.
Proof.
  intros G H. pose proof G as [I A]. destruct e as [f p|f p|f pa v s|pa f life v s|n f life|f|fs|i r|t|i]; cbn [m_step] in H.
  - unfold register in H. destruct (_ <? _)%nat; [by injection H as <- <-|]. apply obind_some in H as (t & _ & H). apply obind_pair in H as (M1 & a & E & [= <- <-]). by eapply ann_ok_add.
  - apply obind_some in H as (M1 & E & [= <- <-]). apply submit_fine in E as (I1 & [_ Ej] & Ea); [|done|done]. split; [done|]. by eapply ann_ok_app.
  - unfold announce in H. destruct (_ <? _)%nat; [by injection H as <- <-|]. destruct v; [|by injection H as <- <-]. apply obind_some in H as (t & _ & H). apply obind_pair in H as (M1 & a & E & [= <- <-]).
    eapply ann_ok_add; [done|exact E|]. intros pa' e' [= <- <-]. split; [done|]. exists f, t. split; [done|lia].
  - unfold sl_announce in H. destruct v; [|by injection H as <- <-]. apply obind_some in H as (t & _ & H). apply obind_some in H as (x & _ & H). apply obind_some in H as (t2 & _ & H). apply obind_pair in H as (M1 & a & E & [= <- <-]).
    eapply ann_ok_add; [done|exact E|]. intros pa' e' [= <- <-]. split; [done|]. exists f, (Z.min t t2). split; [done|lia].
  - unfold sl_renew in H. destruct (find_longest _ _ _ _) as [[p old]|] eqn:Ef; [|by injection H as <- <-]. destruct (ann_of M p old) as [[pa e]|] eqn:Ea; [|by injection H as <- <-].
    apply obind_some in H as (x & _ & H). apply obind_some in H as (t2 & _ & H). apply obind_pair in H as (M1 & a & E & [= <- <-]). eapply ann_ok_add; [done|exact E|]. intros pa' e' [= <- <-]. split; [done|].
    apply find_longest_at in Ef. pose proof (route_at_key _ _ _ _ _ Ef) as [K1 K2]. destruct (ann_of_route M p old pa e G) as (_ & t & Et & _); [by rewrite K1, K2|done|]. exists (r_face old), (Z.min e t2). split; [by rewrite Et|lia].
  - apply obind_some in H as (M1 & E & [= <- <-]). apply remove_all_fine in E as (I1 & [_ Ej] & Ea); [|done]. split; [done|]. by eapply ann_ok_app.
  - apply obind_some in H as (M1 & E & [= <- <-]). apply remove_all_fine in E as (I1 & [_ Ej] & Ea); [|done]. split; [done|]. by eapply ann_ok_app.
  - destruct (q_out (m_q M) !! i) as [c|] eqn:Ei; [|by injection H as <- <-]. apply obind_some in H as (M1 & E & [= <- <-]). set (q := set_q_out _ _) in E.
    assert (I1 : minv (set_m_q q M)). { apply minv_out; try done. intros c' Hc. apply (mi_out _ I). cbn [q q_out set_q_out] in Hc. apply elem_of_app in Hc as [Hc|Hc]; [by eapply elem_of_take in Hc as (k & ? & _); eapply elem_of_list_lookup_2|]. apply elem_of_list_lookup in Hc as [k Hk]. rewrite lookup_drop in Hk. by eapply elem_of_list_lookup_2. }
    destruct (respond_fine c r (set_m_q q M) M1 I1) as [H1 [F1 F2 F3 F4 F5]]; [apply begun_set; [done|done|]; apply (mi_out _ I); by eapply elem_of_list_lookup_2|done|]. split; [done|]. eapply (ann_ok_app M M1 []); [by rewrite F3, app_nil_r|by rewrite F2|done].
  - injection H as <- <-. destruct (_ <=? _)%Z; [|done]. split; [by apply minv_now|done].
  - apply obind_some in H as (M1 & E & [= <- <-]). apply fire_fine in E as (I1 & [_ Ej] & Ea); [|done]. split; [done|]. by eapply ann_ok_app.
Qed.
Lemma run_good l M : m_run l = Some M -> good M.
Proof.
  revert M. induction l as [|e l IH] using rev_ind; intros M; [intros [= <-]; split; [apply minv_init|done]|]. rewrite m_run_snoc. destruct (m_run l) as [M0|]; [|done].
  destruct (m_step e M0) as [[M1 out]|] eqn:E; [|done]. intros [= <-]. eapply step_good; [|exact E]. by apply IH.
Qed.

(** ** C68 *)
(** C68: the routes are those of the updates reported as done, made one after the other *)
Theorem C68_rib l M : m_run l = Some M -> forall n f o, route_in M n f o = route_after (succeeded (q_log (m_q M))) n f o.
Proof. intros [[I _] _]%run_good. apply I. Qed.
Print Assumptions C68_rib.

(** C68: when every update has been reported, and no scheduled call is due, no route is there whose time is over.
    Missing: runs in which an unregistration fails ([C68_gone_refuted]) *)
Theorem C68_gone_partial l M :
  m_run l = Some M -> all_reported M -> removals_done M -> none_due M ->
  forall n f o r t, route_in M n f o = Some r -> r_expires r = Some t -> (m_now M < t)%Z.
Proof.
  intros [I _]%run_good Ha Hd Hn n f o r t Hr Ht.
  assert (Ho : ordered M). { unfold ordered. pose proof Ha as Hl. apply (f_equal length) in Hl. rewrite map_length, seq_length in Hl. unfold report_numbers in Hl. rewrite map_length in Hl. unfold all_reported in Ha. rewrite Ha. f_equal. f_equal. symmetry. exact Hl. }
  destruct (mi_timely _ I Ho) as [T1 _]. pose proof (mi_owner _ I n f o) as Hw. destruct (m_owner M (n, f, o)) as [i|] eqn:Ei; [|congruence]. destruct Hw as (r' & J & _ & _ & _ & Hr'). rewrite Hr in Hr'. injection Hr' as <-.
  destruct (T1 _ _ _ _ _ Ei J Ht) as [(x & Hx & _ & <-)|(i' & u & K1 & [K2 _] & K3)]; [by apply Hn|]. exfalso.
  assert (Hi : i' ∈ report_numbers M). { unfold all_reported in Ha. rewrite Ha. apply elem_of_list_fmap. exists (N.to_nat i'). split; [by rewrite N2Nat.id|]. apply elem_of_seq. apply is_job_lt in K1. lia. }
  unfold report_numbers in Hi. apply elem_of_list_fmap in Hi as ([[k u'] ok] & E & Hin). simpl in E. subst k. destruct ok; [apply K3; by exists u'|]. pose proof (mi_log _ I _ Hin) as [K4 _]. unfold known in K4. simpl in K4. pose proof (is_job_inj _ _ _ _ K1 K4) as ->. apply K2. by eapply Hd.
Qed.
Print Assumptions C68_gone_partial.

(** C68: a call that is scheduled is for a registration that was submitted, at the time when that route is to expire;
    once the registration has been done, it is for the route that is there *)
Theorem C68_timer l M x :
  m_run l = Some M -> x ∈ m_timers M ->
  is_job M (t_id x) (RibUpdate Register (t_name x) (t_route x)) /\
  r_expires (t_route x) = Some (t_at x) /\
  (reported M (t_id x) true -> route_in M (t_name x) (r_face (t_route x)) (r_origin (t_route x)) = Some (t_route x)) /\
  forall y, y ∈ m_timers M -> t_id y = t_id x -> y = x.
Proof.
  intros [I _]%run_good Hx. destruct (mi_timers _ I x Hx) as (H1 & H2 & H3). split; [done|]. split; [done|]. split.
  - intros Hr. apply H3 in Hr. pose proof (mi_owner _ I (t_name x) (r_face (t_route x)) (r_origin (t_route x))) as Ho. unfold rkey_of in Hr. rewrite Hr in Ho. destruct Ho as (r & J & _ & _ & _ & Er). pose proof (is_job_inj _ _ _ _ J H1) as [= ->]. done.
  - intros y Hy E. apply elem_of_list_lookup in Hx as [a Ha]. apply elem_of_list_lookup in Hy as [b Hb]. pose proof (mi_nodup _ I) as Hnd. rewrite NoDup_alt in Hnd.
    assert (a = b) as ->; [|congruence]. apply (Hnd a b (t_id x)); rewrite list_lookup_fmap; [by rewrite Ha|by rewrite Hb; simpl; rewrite E].
Qed.
Print Assumptions C68_timer.

(** C68: a call is made no sooner than it is scheduled for, and removes the route it was scheduled for; other than that,
    time passing and FIB responses lead to no update *)
Theorem C68_fire l M i M' out :
  m_run l = Some M -> m_step (EFire i) M = Some (M', out) ->
  out = [] /\
  ((exists x, x ∈ m_timers M /\ t_id x = i /\ (t_at x <= m_now M)%Z /\ m_jobs M' = m_jobs M ++ [RibUpdate Unregister (t_name x) (t_route x)]) \/
   ((forall x, x ∈ m_timers M -> t_id x = i -> (m_now M < t_at x)%Z) /\ M' = M)).
Proof.
  intros Hl H. pose proof (run_good _ _ Hl) as [I _]. cbn [m_step] in H. apply obind_some in H as (M1 & E & [= <- <-]). split; [done|]. pose proof (fire_fine _ _ _ I E) as (_ & [_ Ej] & _).
  unfold fire in E. unfold fire_updates in Ej. destruct (List.find _ _) as [x|] eqn:Ef.
  - pose proof (find_timer _ _ _ Ef) as [Hx Hi]. destruct (Z.leb_spec (t_at x) (m_now M)) as [Hle|Hgt].
    + left. by exists x.
    + right. injection E as <-. split; [|done]. intros y Hy Ey. destruct (C68_timer l M x Hl Hx) as (_ & _ & _ & Hu). rewrite (Hu y Hy); [done|congruence].
  - right. injection E as <-. split; [|done]. intros y Hy Ey. apply elem_of_list_In in Hy. pose proof (find_none _ _ Ef y Hy) as Hf. simpl in Hf. by apply N.eqb_neq in Hf.
Qed.
Print Assumptions C68_fire.
Theorem C68_quiet l M e M' out :
  m_run l = Some M -> m_step e M = Some (M', out) -> match e with EFib _ _ | EClock _ => True | _ => False end ->
  m_jobs M' = m_jobs M /\ out = [] /\ (m_now M <= m_now M')%Z /\ forall x, x ∈ m_timers M' -> x ∈ m_timers M.
Proof.
  intros [I _]%run_good H He. destruct e as [| | | | | | |i r|t|]; try done; cbn [m_step] in H.
  - destruct (q_out (m_q M) !! i) as [c|] eqn:Ei; [|by injection H as <- <-]. apply obind_some in H as (M1 & E & [= <- <-]). set (q := set_q_out _ _) in E.
    assert (I1 : minv (set_m_q q M)). { apply minv_out; try done. intros c' Hc. apply (mi_out _ I). cbn [q q_out set_q_out] in Hc. apply elem_of_app in Hc as [Hc|Hc]; [by eapply elem_of_take in Hc as (k & ? & _); eapply elem_of_list_lookup_2|]. apply elem_of_list_lookup in Hc as [k Hk]. rewrite lookup_drop in Hk. by eapply elem_of_list_lookup_2. }
    destruct (respond_fine c r (set_m_q q M) M1 I1) as [H1 [F1 F2 F3 F4 F5]]; [apply begun_set; [done|done|]; apply (mi_out _ I); by eapply elem_of_list_lookup_2|done|]. split; [done|]. split; [done|]. split; [by rewrite F1|done].
  - injection H as <- <-. destruct (Z.leb_spec (m_now M) t); done.
Qed.
Print Assumptions C68_quiet.

(** ** C69 *)
(** C69: a registration whose prefix has more than 32 components is refused; any other is confirmed, with the face it is
    for, and leads to one update, a registration until the time it asks for; if that is not in the future, a removal *)
Theorem C69_register l M f p M' out :
  m_run l = Some M -> m_step (ERegister f p) M = Some (M', out) ->
  if bool_decide (32 < length (p_name p))%nat then M' = M /\ out = [RResponse 414 None]
  else out = [RResponse 200 (Some (Params (p_name p) (meant f (p_face p)) (p_origin p) (p_cost p) (p_flags p) (p_period p)))] /\
       m_jobs M' = m_jobs M ++ [until (m_now M) (p_name p) (meant f (p_face p)) (p_origin p) (p_cost p) (p_flags p)
         (match p_period p with None => None | Some d => if bool_decide (d = 2 ^ 63 - 1)%Z then None else Some (m_now M + d * 1000000)%Z end)].
Proof.
  intros [I _]%run_good H. cbn [m_step] in H. unfold register in H. change MAX_DEPTH with 32%nat in H. destruct (Nat.ltb_spec 32 (length (p_name p))) as [Hl|Hl].
  - rewrite bool_decide_true by done. by injection H as <- <-.
  - rewrite bool_decide_false by lia. apply obind_some in H as (t & Et & H). apply obind_pair in H as (M1 & a & E & [= <- <-]). rewrite with_face_meant in *. cbn [p_name p_face p_origin p_cost p_flags p_period] in *. split; [done|].
    destruct (add_route_fine _ _ _ _ _ _ I E) as (_ & [_ Ej] & _). rewrite Ej, add_update_until. do 3 f_equal. apply expires_of_spec in Et. destruct (p_period p) as [d|]; [|done]. case_bool_decide; [done|]. by destruct Et as [-> _].
Qed.
Print Assumptions C69_register.
(** C69: an unregistration is confirmed and leads to one removal *)
Theorem C69_unregister l M f p M' out :
  m_run l = Some M -> m_step (EUnregister f p) M = Some (M', out) ->
  out = [RResponse 200 (Some (Params (p_name p) (meant f (p_face p)) (p_origin p) (p_cost p) (p_flags p) (p_period p)))] /\
  m_jobs M' = m_jobs M ++ [RibUpdate Unregister (p_name p) (Route (meant f (p_face p)) (p_origin p) 0 0 None)].
Proof.
  intros [I _]%run_good H. cbn [m_step] in H. apply obind_some in H as (M1 & E & [= <- <-]). rewrite with_face_meant in *. cbn [p_name p_face p_origin p_cost p_flags p_period] in *. split; [done|]. apply submit_fine in E as (_ & [_ Ej] & _); [|done|done]. done.
Qed.
Print Assumptions C69_unregister.
(** C69: an announcement that is not valid, or of a name with more than 32 components, is refused and changes nothing; one
    that is registers the announced name until its end, on the face it came from *)
Theorem C69_announce l M f pa valid sys M' out :
  m_run l = Some M -> m_step (EAnnounce f pa valid sys) M = Some (M', out) ->
  if bool_decide (32 < length (pa_name pa))%nat then M' = M /\ out = [RResponse 414 None]
  else if valid then exists e, ann_ends (m_now M) sys pa e /\
         out = [RResponse 200 (Some (Params (pa_name pa) f 129 2048 1 (Some (Z.quot (e - m_now M) 1000000))))] /\
         m_jobs M' = m_jobs M ++ [until (m_now M) (pa_name pa) f 129 2048 1 (Some e)]
  else M' = M /\ out = [RResponse 403 None].
Proof.
  intros [I _]%run_good H. cbn [m_step] in H. unfold announce in H. change MAX_DEPTH with 32%nat in H. destruct (Nat.ltb_spec 32 (length (pa_name pa))) as [Hl|Hl].
  - rewrite bool_decide_true by done. by injection H as <- <-.
  - rewrite bool_decide_false by lia. destruct valid; [|by injection H as <- <-]. apply obind_some in H as (e & Ee & H). apply obind_pair in H as (M1 & a & E & [= <- <-]). apply ann_expires_spec in Ee as (Ee & _). exists e. split; [done|]. split; [done|].
    destruct (add_route_fine _ _ _ _ _ _ I E) as (_ & [_ Ej] & _). rewrite Ej. unfold pa_route. by rewrite (add_update_until _ _ f 129 2048 1).
Qed.
Print Assumptions C69_announce.
(** C69: the self-learning strategy's announcements: the route is there for the given time, and no longer than the
    announcement; the result is that it has expired, if that is not in the future, or the report on the update *)
Theorem C69_sl_announce l M pa f life valid sys M' out :
  m_run l = Some M -> m_step (ESlAnnounce pa f life valid sys) M = Some (M', out) ->
  if valid then exists e, ann_ends (m_now M) sys pa e /\
    let t := Z.min e (m_now M + life * 1000000) in
    m_jobs M' = m_jobs M ++ [until (m_now M) (pa_name pa) f 129 2048 1 (Some t)] /\
    out = [if bool_decide (t <= m_now M)%Z then RResult SlExpired else RLater (N.of_nat (length (m_jobs M)))]
  else M' = M /\ out = [RResult SlInvalid].
Proof.
  intros [I _]%run_good H. cbn [m_step] in H. unfold sl_announce in H. destruct valid; [|by injection H as <- <-]. apply obind_some in H as (e & Ee & H). apply obind_some in H as (x & Ex & H). apply obind_some in H as (t & Et & H).
  apply obind_pair in H as (M1 & a & E & [= <- <-]). apply ann_expires_spec in Ee as (Ee & _). apply ns_some in Ex as [-> _]. apply ns_some in Et as [-> _]. change MS with 1000000%Z in *. exists e. split; [done|]. cbv zeta.
  destruct (add_route_fine _ _ _ _ _ _ I E) as (_ & [_ Ej] & -> & _). rewrite Ej. unfold pa_route. rewrite (add_update_until _ _ f 129 2048 1). split; [done|]. unfold until. cbn [ru_action]. rewrite <-(mi_next _ I). by case_bool_decide.
Qed.
Print Assumptions C69_sl_announce.
(** C69: renewal of a route.  The route of an announcement on the face at the name itself, or else at the next registered
    prefix, is registered again for the given time, but not beyond its announcement; otherwise there is none *)
Theorem C69_sl_renew l M n f life M' out :
  m_run l = Some M -> m_step (ESlRenew n f life) M = Some (M', out) ->
  (exists p r pa e,
     (p = n \/ (route_in M n f 129 = None /\ nearest (q_rib (m_q M)) n p)) /\ route_in M p f 129 = Some r /\ ann_of M p r = Some (pa, e) /\
     pa_name pa = p /\
     let t := Z.min e (m_now M + life * 1000000) in
     m_jobs M' = m_jobs M ++ [until (m_now M) p f 129 2048 1 (Some t)] /\
     out = [if bool_decide (t <= m_now M)%Z then RResult SlExpired else RLater (N.of_nat (length (m_jobs M)))]) \/
  ((forall p r, (p = n \/ (route_in M n f 129 = None /\ nearest (q_rib (m_q M)) n p)) -> route_in M p f 129 = Some r -> ann_of M p r = None) /\
   M' = M /\ out = [RResult SlNotFound]).
Proof.
  intros Hl H. pose proof (run_good _ _ Hl) as G. pose proof G as [I _]. cbn [m_step] in H. unfold sl_renew in H. change ORIGIN_PREFIXANN with 129%N in H.
  assert (Hwhere : forall p r, (p = n \/ (route_in M n f 129 = None /\ nearest (q_rib (m_q M)) n p)) -> route_in M p f 129 = Some r -> find_longest n f 129 (q_rib (m_q M)) = Some (p, r)).
  { intros p r Hp Hr. unfold find_longest. rewrite !rib_find_route. unfold route_in in *. destruct Hp as [->|[Hn Hp]]; [by rewrite Hr|]. rewrite Hn. apply dom_nearest_iff, find_parent_some in Hp. by rewrite Hp, rib_find_route, Hr. }
  destruct (find_longest _ _ _ _) as [[p old]|] eqn:Ef.
  - pose proof (find_longest_at _ _ _ _ _ _ Ef) as Hr. pose proof (route_at_key _ _ _ _ _ Hr) as [K1 K2].
    assert (Hp : p = n \/ (route_in M n f 129 = None /\ nearest (q_rib (m_q M)) n p)).
    { unfold find_longest in Ef. rewrite !rib_find_route in Ef. unfold route_in. destruct (route_at (q_rib (m_q M)) n f 129); [injection Ef as <- _; by left|]. right. split; [done|]. destruct (find_parent _ _) as [q|] eqn:Eq; [|done].
      apply find_parent_some in Eq. destruct (rib_find q f 129 (q_rib (m_q M))); [|done]. injection Ef as <- _. by apply dom_nearest_iff. }
    destruct (ann_of M p old) as [[pa e]|] eqn:Ea.
    + left. apply obind_some in H as (x & Ex & H). apply obind_some in H as (t & Et & H). apply obind_pair in H as (M1 & a & E & [= <- <-]). apply ns_some in Ex as [-> _]. apply ns_some in Et as [-> _]. change MS with 1000000%Z in *.
      destruct (ann_of_route M p old pa e G) as (Hn & t0 & Et0 & _); [by rewrite K1, K2|done|]. exists p, old, pa, e. split; [done|]. split; [done|]. split; [done|]. split; [done|]. cbv zeta.
      destruct (add_route_fine _ _ _ _ _ _ I E) as (_ & [_ Ej] & -> & _). rewrite Ej, add_update_until, Hn. rewrite Et0. cbn [r_face r_origin r_cost r_flags pa_route]. rewrite K1. split; [done|]. unfold until. cbn [ru_action]. rewrite <-(mi_next _ I). by case_bool_decide.
    + right. injection H as <- <-. split; [|done]. intros p' r' Hp' Hr'. pose proof (Hwhere _ _ Hp' Hr') as [= <- <-]. done.
  - right. injection H as <- <-. split; [|done]. intros p' r' Hp' Hr'. by pose proof (Hwhere _ _ Hp' Hr').
Qed.
Print Assumptions C69_sl_renew.
(** C69: a route that came with an announcement is for the announced name and is there no longer than the announcement
    allows, however often it was renewed *)
Theorem C69_announced l M n f o r pa e :
  m_run l = Some M -> route_in M n f o = Some r -> ann_of M n r = Some (pa, e) ->
  pa_name pa = n /\ exists t, r = Route f 129 2048 1 (Some t) /\ (t <= e)%Z.
Proof.
  intros G%run_good Hr Ha. pose proof (route_at_key _ _ _ _ _ Hr) as [K1 K2]. destruct (ann_of_route M n r pa e G) as (Hn & t & Et & Ht); [by rewrite K1, K2|done|]. split; [done|]. exists t. split; [|done]. by rewrite Et, K1.
Qed.
Print Assumptions C69_announced.
(** C69: when a face is gone, or is not among those that are there, all its routes are removed, and no others *)
Theorem C69_faces l M e M' out :
  m_run l = Some M -> m_step e M = Some (M', out) ->
  forall gone : N -> Prop,
    match e with EFaceGone f => forall g, gone g <-> g = f | EActive fs => forall g, gone g <-> g ∉ fs | _ => False end ->
  out = [] /\ exists us, m_jobs M' = m_jobs M ++ us /\
    forall u, u ∈ us <-> ru_action u = RemoveFace /\ gone (r_face (ru_route u)) /\ ru_route u ∈ routes_at (q_rib (m_q M)) (ru_name u).
Proof.
  intros [I _]%run_good H gone Hg. destruct (mi_booked _ I) as [[ops Hops] _].
  assert (Hin : forall l u, u ∈ map (fun x => RibUpdate RemoveFace (fst x) (snd x)) l <-> ru_action u = RemoveFace /\ (ru_name u, ru_route u) ∈ l).
  { intros us u. rewrite elem_of_list_fmap. split; [intros ([n r] & -> & Hx); done|]. intros [Ha Hx]. exists (ru_name u, ru_route u). split; [|done]. destruct u; simpl in *. by subst. }
  destruct e as [| | | | |f|fs| | |]; try done; cbn [m_step] in H; apply obind_some in H as (M1 & E & [= <- <-]); (split; [done|]); apply remove_all_fine in E as (_ & [_ Ej] & _); try done; eexists; (split; [exact Ej|]); intros u; rewrite Hin.
  - rewrite (C52_faces ops _ f _ _ Hops), Hg. tauto.
  - rewrite Hg. apply rib_run_inv in Hops. assert (K : (ru_name u, ru_route u) ∈ failed_face_updates fs (q_rib (m_q M)) <-> r_face (ru_route u) ∉ fs /\ ru_route u ∈ routes_at (q_rib (m_q M)) (ru_name u)); [|by rewrite K].
    set (R := q_rib (m_q M)) in *. set (n := ru_name u). set (r := ru_route u). unfold failed_face_updates. etransitivity; [apply elem_of_list_In|]. etransitivity; [apply in_concat|]. split.
    + intros (k & Hk & Hr). apply in_map_iff in Hk as ([f' id] & <- & Hi). cbn [fst snd] in Hr. destruct (existsb (N.eqb f') fs) eqn:Ex; [done|]. apply filter_In in Hr as [Hr Hf]. cbn [snd] in Hf. apply N.eqb_eq in Hf.
      apply elem_of_list_In, routes_of_id_in in Hr as (e & He & _ & Hr). unfold routes_at. rewrite He. split; [|done]. intros Hin2. rewrite <-not_true_iff_false in Ex. apply Ex. apply existsb_exists. exists f'. split; [apply elem_of_list_In; by rewrite <-Hf|apply N.eqb_refl].
    + unfold routes_at. intros [Hf Hr]. destruct (rb_map R !! n) as [e|] eqn:E; [|by apply elem_of_nil in Hr].
      eexists. split; [apply in_map_iff; exists (r_face r, re_id e); split; [done|apply elem_of_list_In; by apply (ri_faces R Hops n e)]|]. cbn [fst snd].
      destruct (existsb (N.eqb (r_face r)) fs) eqn:Ex; [apply existsb_exists in Ex as (g & Hgin & Heq%N.eqb_eq); exfalso; apply Hf; rewrite Heq; by apply elem_of_list_In|].
      apply filter_In. split; [|cbn [snd]; apply N.eqb_refl]. apply elem_of_list_In, routes_of_id_in. by exists e.
Qed.
Print Assumptions C69_faces.

(** ** The queries *)
Definition counts (M : mgr) : Prop := forall u t, u ∈ m_jobs M -> r_expires (ru_route u) = Some t -> countable t.
Lemma counts_app M M' us : counts M -> m_jobs M' = m_jobs M ++ us -> (forall u t, u ∈ us -> r_expires (ru_route u) = Some t -> countable t) -> counts M'.
Proof. intros C E H u t. rewrite E, elem_of_app. intros [Hu|Hu]; [by apply C|by apply H]. Qed.
Lemma counts_add n r a M M' res : good M -> counts M -> add_route n r a M = Some (M', res) -> (forall t, r_expires r = Some t -> countable t) -> counts M'.
Proof.
  intros [I _] C H Hr. destruct (add_route_fine _ _ _ _ _ _ I H) as (_ & [_ Ej] & _). eapply counts_app; [done|exact Ej|]. intros u t ->%elem_of_list_singleton. apply Hr.
Qed.
Lemma nodup_key l (x y : route) : NoDup (map key l) -> x ∈ l -> y ∈ l -> key x = key y -> x = y.
Proof.
  induction l as [|z l IH]; [by intros _ ?%elem_of_nil|]. simpl. intros [Hz Hnd]%NoDup_cons. rewrite !elem_of_cons. intros [->|Hx] [->|Hy] E; [done|..|by apply IH].
  - exfalso. apply Hz. rewrite E. by apply elem_of_list_fmap_1.
  - exfalso. apply Hz. rewrite <-E. by apply elem_of_list_fmap_1.
Qed.
Lemma find_route_in r l : NoDup (map key l) -> r ∈ l -> find_route r l = Some r.
Proof.
  intros Hnd Hr. destruct (find_route r l) as [x|] eqn:E.
  - apply find_route_some in E as [Hx Hk]. f_equal. by eapply nodup_key.
  - apply find_route_none in E. exfalso. apply E. by apply elem_of_list_fmap_1.
Qed.
Lemma route_job M n r : minv M -> r ∈ routes_at (q_rib (m_q M)) n -> RibUpdate Register n r ∈ m_jobs M.
Proof.
  intros I Hr. destruct (mi_booked _ I) as [[ops Hops] _]. apply rib_run_inv in Hops.
  assert (Hat : route_in M n (r_face r) (r_origin r) = Some r). { unfold route_in, route_at. unfold routes_at in *. destruct (rb_map _ !! n) as [e|] eqn:E; [|by apply elem_of_nil in Hr]. destruct (ri_routes _ Hops n e E) as (_ & Hnd & _). by apply find_route_in. }
  pose proof (mi_owner _ I n (r_face r) (r_origin r)) as Ho. destruct (m_owner M _) as [i|]; [|congruence]. destruct Ho as (r' & J & _ & _ & _ & Hr'). rewrite Hat in Hr'. injection Hr' as <-. by eapply elem_of_list_lookup_2.
Qed.
Lemma step_counts e M M' out : good M -> counts M -> m_step e M = Some (M', out) -> counts M'.
Proof.
  intros G C H. pose proof G as [I A]. destruct e as [f p|f p|f pa v s|pa f life v s|n f life|f|fs|i r|t|i]; cbn [m_step] in H.
  - unfold register in H. destruct (_ <? _)%nat; [by injection H as <- <-|]. apply obind_some in H as (t & Et & H). apply obind_pair in H as (M1 & a & E & [= <- <-]). eapply counts_add; [done..|exact E|]. cbn [r_expires]. intros t' ->.
    apply expires_of_spec in Et. destruct (p_period _) as [d|]; [|done]. case_bool_decide; [done|]. by destruct Et as ([= ->] & _ & ?).
  - apply obind_some in H as (M1 & E & [= <- <-]). apply submit_fine in E as (_ & [_ Ej] & Ea); [|done|done]. eapply counts_app; [done|exact Ej|]. by intros u t ->%elem_of_list_singleton.
  - unfold announce in H. destruct (_ <? _)%nat; [by injection H as <- <-|]. destruct v; [|by injection H as <- <-]. apply obind_some in H as (t & Et & H). apply obind_pair in H as (M1 & a & E & [= <- <-]).
    eapply counts_add; [done..|exact E|]. cbn [pa_route r_expires]. intros ? [= <-]. apply ann_expires_spec in Et as (_ & _ & Et). exact Et.
  - unfold sl_announce in H. destruct v; [|by injection H as <- <-]. apply obind_some in H as (t & Et & H). apply obind_some in H as (x & _ & H). apply obind_some in H as (t2 & Et2 & H). apply obind_pair in H as (M1 & a & E & [= <- <-]).
    eapply counts_add; [done..|exact E|]. cbn [pa_route r_expires]. intros ? [= <-]. apply ann_expires_spec in Et as (_ & _ & Et). apply ns_some in Et2 as [-> Et2]. unfold countable in *. lia.
  - unfold sl_renew in H. destruct (find_longest _ _ _ _) as [[p old]|] eqn:Ef; [|by injection H as <- <-]. destruct (ann_of M p old) as [[pa e]|] eqn:Ea; [|by injection H as <- <-].
    apply obind_some in H as (x & _ & H). apply obind_some in H as (t2 & Et2 & H). apply obind_pair in H as (M1 & a & E & [= <- <-]). eapply counts_add; [done..|exact E|]. cbn [r_expires]. intros t [= <-]. apply ns_some in Et2 as [-> Et2].
    apply find_longest_at in Ef. pose proof (route_at_key _ _ _ _ _ Ef) as [K1 K2]. destruct (ann_of_route M p old pa e G) as (_ & t & Et & Hle); [by rewrite K1, K2|done|].
    apply find_some in Ef as [Hin _]. apply elem_of_list_In in Hin. pose proof (C _ t (route_job M p old I Hin)) as Hc. cbn [ru_route] in Hc. rewrite Et in Hc. specialize (Hc eq_refl). unfold countable in *. lia.
  - apply obind_some in H as (M1 & E & [= <- <-]). apply remove_all_fine in E as (_ & [_ Ej] & _); [|done]. eapply counts_app; [done|exact Ej|]. intros u t Hu. apply elem_of_list_fmap in Hu as ([n r] & -> & Hr). destruct (mi_booked _ I) as [[ops Hops] _]. apply (C52_faces ops _ f _ _ Hops) in Hr as [Hr _]. intros Ht. eapply (C (RibUpdate Register n r)); [|exact Ht].
    apply route_job; [done|]. exact Hr.
  - apply obind_some in H as (M1 & E & [= <- <-]). apply remove_all_fine in E as (_ & [_ Ej] & _); [|done]. eapply counts_app; [done|exact Ej|]. intros u t Hu. apply elem_of_list_fmap in Hu as ([n r] & -> & Hr). intros Ht. eapply (C (RibUpdate Register n r)); [|exact Ht]. apply route_job; [done|]. unfold failed_face_updates in Hr. apply elem_of_list_In, in_concat in Hr as (k & Hk & Hr).
    apply in_map_iff in Hk as ([f' id] & <- & _). destruct (existsb _ _); [by destruct Hr|]. apply filter_In in Hr as [Hr _]. apply elem_of_list_In, routes_of_id_in in Hr as (e & He & _ & Hr). unfold routes_at. by rewrite He.
  - destruct (q_out (m_q M) !! i) as [c|] eqn:Ei; [|by injection H as <- <-].
    assert (Hj : m_jobs M' = m_jobs M); [|by intros u t; rewrite Hj; apply C]. apply obind_some in H as (M1 & E & [= <- <-]). set (q := set_q_out _ _) in E.
    assert (I1 : minv (set_m_q q M)). { apply minv_out; try done. intros c' Hc. apply (mi_out _ I). cbn [q q_out set_q_out] in Hc. apply elem_of_app in Hc as [Hc|Hc]; [by eapply elem_of_take in Hc as (k & ? & _); eapply elem_of_list_lookup_2|]. apply elem_of_list_lookup in Hc as [k Hk]. rewrite lookup_drop in Hk. by eapply elem_of_list_lookup_2. }
    destruct (respond_fine c r (set_m_q q M) M1 I1) as [H1 [F1 F2 F3 F4 F5]]; [apply begun_set; [done|done|]; apply (mi_out _ I); by eapply elem_of_list_lookup_2|done|done].
  - injection H as <- <-. by destruct (_ <=? _)%Z.
  - apply obind_some in H as (M1 & E & [= <- <-]). apply fire_fine in E as (_ & [_ Ej] & _); [|done]. eapply counts_app; [done|exact Ej|]. unfold fire_updates. destruct (List.find _ _) as [x|] eqn:Ex; [|by intros u t ?%elem_of_nil].
    destruct (_ <=? _)%Z; [|by intros u t ?%elem_of_nil]. apply find_timer in Ex as [Hx _]. intros u t ->%elem_of_list_singleton. cbn [ru_route]. intros Ht. destruct (mi_timers _ I x Hx) as (J & _). eapply (C _ t (elem_of_list_lookup_2 _ _ _ J)). done.
Qed.
Lemma run_counts l M : m_run l = Some M -> counts M.
Proof.
  revert M. induction l as [|e l IH] using rev_ind; intros M; [intros [= <-]; by intros u t ?%elem_of_nil|]. rewrite m_run_snoc. destruct (m_run l) as [M0|] eqn:E0; [|done].
  destruct (m_step e M0) as [[M1 out]|] eqn:E; [|done]. intros [= <-]. eapply step_counts; [|by apply IH|exact E]. by eapply run_good.
Qed.
Lemma best_ann_spec M n l b :
  match fold_left (best_ann M n) l b with
  | None => b = None /\ forall r t, r ∈ l -> r_expires r = Some t -> ann_of M n r = None
  | Some (pa, t) => (b = Some (pa, t) \/ exists r e, r ∈ l /\ r_expires r = Some t /\ ann_of M n r = Some (pa, e)) /\
                    (forall pa' t', b = Some (pa', t') -> (t' <= t)%Z) /\ forall r t' x, r ∈ l -> r_expires r = Some t' -> ann_of M n r = Some x -> (t' <= t)%Z
  end.
Proof.
  revert b. induction l as [|r l IH]; intros b; cbn [fold_left].
  - destruct b as [[pa t]|]; [|split; [done|by intros r t ?%elem_of_nil]]. split; [by left|]. split; [intros ? ? [= _ ->]; lia|by intros ? ? ? ?%elem_of_nil].
  - specialize (IH (best_ann M n b r)). destruct (fold_left _ _ _) as [[pa t]|].
    + destruct IH as (H1 & H2 & H3). unfold best_ann in H1, H2. destruct (r_expires r) as [tr|] eqn:Er.
      2:{ split; [|split; [done|]].
          - destruct H1 as [H1|(r' & e & ? & ? & ?)]; [by left|right]. exists r', e. by rewrite elem_of_cons; auto.
          - intros r' t' x [->|Hr']%elem_of_cons; [congruence|by apply H3]. }
      destruct (ann_of M n r) as [[pr er]|] eqn:Ea.
      2:{ split; [|split; [done|]].
          - destruct H1 as [H1|(r' & e & ? & ? & ?)]; [by left|right]. exists r', e. by rewrite elem_of_cons; auto.
          - intros r' t' x [->|Hr']%elem_of_cons; [congruence|by apply H3]. }
      split; [|split].
      * destruct H1 as [H1|(r' & e & ? & ? & ?)]; [|right; exists r', e; by rewrite elem_of_cons; auto].
        destruct b as [[pb tb]|]; [destruct (Z.ltb_spec tb tr); [|by left]|]; injection H1 as <- <-; right; exists r, er; by rewrite elem_of_cons; auto.
      * intros pa' t' ->. destruct (Z.ltb_spec t' tr); [|by eapply H2]. specialize (H2 _ _ eq_refl). lia.
      * intros r' t' x [->|Hr']%elem_of_cons; [|by apply H3]. intros Ht _. rewrite Er in Ht. injection Ht as <-. destruct b as [[pb tb]|]; [destruct (Z.ltb_spec tb tr); specialize (H2 _ _ eq_refl); lia|]. by specialize (H2 _ _ eq_refl).
    + destruct IH as [H1 H2]. unfold best_ann in H1. split.
      * destruct (r_expires r); [|done]. destruct (ann_of M n r) as [[? ?]|]; [|done]. destruct b as [[? ?]|]; [|done]. by destruct (_ <? _)%Z.
      * intros r' t [->|Hr']%elem_of_cons; [|by apply H2]. intros Ht. rewrite Ht in H1. destruct (ann_of M n r) as [[? ?]|]; [|done]. destruct b as [[? ?]|]; [by destruct (_ <? _)%Z|done].
Qed.
Lemma entry_expiry_spec l : l <> [] -> (forall r t, r ∈ l -> r_expires r = Some t -> countable t) -> latest l (entry_expiry l).
Proof.
  intros Hne Hc. unfold latest, entry_expiry. change (2 ^ 63)%Z with (NS_MAX + 1)%Z in *.
  assert (H : forall l b, (forall r t, r ∈ l -> r_expires r = Some t -> countable t) -> (b <= NS_MAX)%Z ->
            let t := fold_left (fun e r => match r_expires r with Some t => Z.max e t | None => NS_MAX end) l b in
            (b <= t <= NS_MAX)%Z /\ (t = b \/ exists r, r ∈ l /\ expiry r = t) /\ forall r, r ∈ l -> (expiry r <= t)%Z).
  { clear. induction l as [|r l IH]; intros b Hc Hb; cbv zeta; cbn [fold_left]; [split; [lia|split; [by left|by intros ? ?%elem_of_nil]]|].
    set (b' := match r_expires r with Some t => Z.max b t | None => NS_MAX end).
    assert (Hb' : (b <= b' <= NS_MAX)%Z /\ (b' = b \/ b' = expiry r) /\ (expiry r <= b')%Z).
    { unfold b', expiry. destruct (r_expires r) as [t|] eqn:Er; [pose proof (Hc r t ltac:(left) Er) as K; unfold countable in K; change (2 ^ 63)%Z with (NS_MAX + 1)%Z in K|change (2 ^ 63 - 1)%Z with NS_MAX]; lia. }
    destruct (IH b') as (H1 & H2 & H3); [intros r' t Hr'; apply Hc; by right|lia|]. set (t := fold_left _ l b') in *. split; [lia|]. split.
    - destruct H2 as [->|(r' & ? & ?)]; [|right; exists r'; split; [by right|done]]. destruct Hb' as (_ & [->| ->] & _); [by left|]. right. exists r. split; [left|done].
    - intros r' [->|Hr']%elem_of_cons; [lia|by apply H3]. }
  destruct (H l (- NS_MAX - 1)%Z Hc ltac:(done)) as (H1 & H2 & H3). set (t := fold_left _ l _) in *. split; [|done]. destruct H2 as [H2|H2]; [|done].
  destruct l as [|r l]; [done|]. exists r. split; [left|]. pose proof (H3 r ltac:(left)) as K. assert (- NS_MAX - 1 <= expiry r)%Z; [|lia]. unfold expiry. destruct (r_expires r) as [tr|] eqn:Er; [|done]. pose proof (Hc r tr ltac:(left) Er) as K2. unfold countable in K2. change (2 ^ 63)%Z with (NS_MAX + 1)%Z in K2. lia.
Qed.

(** C69: the announcement found for a name is that of the entry of the name or else of its longest prefix with an entry:
    the one that lasts longest among those of its routes; without any, one for that prefix, for as long as its last route
    stays, but at least 15 seconds and at most an hour *)
Theorem C69_find_ann l M n a :
  m_run l = Some M -> sl_find_ann n M = Some a ->
  match a with
  | None => forall p, registered (q_rib (m_q M)) p -> ~ p `prefix_of` n
  | Some (FAnnounced pa) => exists p, closest (q_rib (m_q M)) n p /\
      exists r t e, r ∈ routes_at (q_rib (m_q M)) p /\ r_expires r = Some t /\ ann_of M p r = Some (pa, e) /\
      forall r' t' x, r' ∈ routes_at (q_rib (m_q M)) p -> r_expires r' = Some t' -> ann_of M p r' = Some x -> (t' <= t)%Z
  | Some (FMade p d) => closest (q_rib (m_q M)) n p /\ (forall r, r ∈ routes_at (q_rib (m_q M)) p -> ann_of M p r = None) /\
      exists t, latest (routes_at (q_rib (m_q M)) p) t /\ d = Z.max 15000 (Z.min 3600000 (Z.quot (t - m_now M) 1000000))
  end.
Proof.
  intros Hl H. pose proof (run_good _ _ Hl) as G. pose proof G as [I _]. destruct (mi_booked _ I) as [[ops Hops] _]. apply rib_run_inv in Hops. pose proof (run_counts _ _ Hl) as C. set (R := q_rib (m_q M)) in *.
  assert (K : forall p e fa, rb_map R !! p = Some e -> closest R n p -> entry_ann M p (re_routes e) = Some fa ->
            match fa with
            | FAnnounced pa => exists p, closest R n p /\ exists r t e, r ∈ routes_at R p /\ r_expires r = Some t /\ ann_of M p r = Some (pa, e) /\
                 forall r' t' x, r' ∈ routes_at R p -> r_expires r' = Some t' -> ann_of M p r' = Some x -> (t' <= t)%Z
            | FMade p d => closest R n p /\ (forall r, r ∈ routes_at R p -> ann_of M p r = None) /\ exists t, latest (routes_at R p) t /\ d = Z.max 15000 (Z.min 3600000 (Z.quot (t - m_now M) 1000000))
            end).
  { intros p e fa He Hp Hf. unfold entry_ann in Hf. pose proof (best_ann_spec M p (re_routes e) None) as Hb. assert (Hre : routes_at R p = re_routes e) by (unfold routes_at; by rewrite He). destruct (ri_routes R Hops p e He) as (Hne & Hnd & _).
    destruct (fold_left _ _ _) as [[pa t]|].
    - injection Hf as <-. exists p. split; [done|]. rewrite Hre. destruct Hb as ([Hb|(r & x & Hr & Ht & Ha)] & _ & Hall); [done|]. by exists r, t, x.
    - apply obind_some in Hf as (d & Ed & [= <-]). apply ns_some in Ed as [-> _]. rewrite Hre. split; [done|]. split.
      + intros r Hr. destruct (ann_of M p r) as [[pa x]|] eqn:Ea; [|done]. destruct (ann_of_route M p r pa x G) as (_ & t & Et & _); [|done|].
        { unfold route_in, route_at. fold R. rewrite Hre. by apply find_route_in. }
        destruct Hb as [_ Hb]. rewrite <-Ea. eapply Hb; [done|]. by rewrite Et.
      + exists (entry_expiry (re_routes e)). split; [|change MS with 1000000%Z; generalize (Z.quot (entry_expiry (re_routes e) - m_now M) 1000000); clear; intros x; unfold clamp; destruct (Z.ltb_spec x 15000), (Z.ltb_spec 3600000 x); lia]. apply entry_expiry_spec; [done|]. intros r t Hr Ht. eapply C; [apply (route_job M p r I); fold R; by rewrite Hre|done]. }
  unfold sl_find_ann in H. fold R in H. destruct (rb_map R !! n) as [e|] eqn:En.
  - apply obind_some in H as (fa & Hf & [= <-]). apply (K n e fa); [done| |done]. split; [unfold registered; by rewrite En|]. split; [done|]. done.
  - destruct (find_parent (rb_map R) n) as [p|] eqn:Ep.
    + destruct (rb_map R !! p) as [e|] eqn:E; [|done]. apply obind_some in H as (fa & Hf & [= <-]). apply (K p e fa); [done| |done]. apply find_parent_some, dom_nearest_iff in Ep as (H1 & [H2 _] & H3). split; [done|]. split; [done|].
      intros q Hq1 Hq2. apply H3; [done|]. split; [done|]. intros ->. unfold registered in Hq1. rewrite En in Hq1. by destruct Hq1.
    + injection H as <-. intros p Hp1 Hp2. assert (Hne : p <> n) by (intros ->; unfold registered in Hp1; rewrite En in Hp1; by destruct Hp1). destruct Hp1 as [x Hx]. rewrite (proj1 (find_parent_none _ _) Ep p) in Hx; [done|]. by split.
Qed.
Print Assumptions C69_find_ann.

(** C69: the listing has each prefix with an entry once, in order, and a row for each of its routes *)
Theorem C69_list l M :
  m_run l = Some M ->
  sorted_names (map fst (list_entries M)) /\
  (forall n, n ∈ map fst (list_entries M) <-> registered (q_rib (m_q M)) n) /\
  forall n rows, (n, rows) ∈ list_entries M ->
    length rows = length (routes_at (q_rib (m_q M)) n) /\
    forall f o c fl t, (f, o, c, fl, t) ∈ rows <->
      exists e, route_in M n f o = Some (Route f o c fl e) /\ t = (match e with Some e => Some (Z.quot (e - m_now M) 1000000) | None => None end).
Proof.
  intros [I _]%run_good. destruct (mi_booked _ I) as [[ops Hops] _]. apply rib_run_inv in Hops. unfold list_entries, route_in. set (R := q_rib (m_q M)) in *.
  assert (E : map fst (map (fun n => (n, match rb_map R !! n with Some e => map (list_route (m_now M)) (re_routes e) | None => [] end)) (rib_names (rb_map R))) = rib_names (rb_map R)).
  { rewrite map_map. simpl. apply map_id. }
  rewrite E. split; [apply rib_names_sorted|]. split; [apply rib_names_in|]. intros n rows Hin. apply elem_of_list_fmap in Hin as (n' & Hp & Hn). injection Hp as -> ->. apply rib_names_in in Hn as [e He]. unfold route_at, routes_at. rewrite He. rewrite map_length. split; [done|].
  destruct (ri_routes R Hops _ e He) as (_ & Hnd & _). intros f o c fl t. split.
  - intros ([f' o' c' fl' e'] & Hr & Hin)%elem_of_list_fmap. injection Hr as -> -> -> -> ->. exists e'. split; [|by destruct e']. by apply (find_route_in (Route f' o' c' fl' e')).
  - intros (e' & Hf & ->). apply find_some in Hf as [Hf _]. apply elem_of_list_fmap. exists (Route f o c fl e'). split; [by destruct e'|by apply elem_of_list_In].
Qed.
Print Assumptions C69_list.

(** ** Cases *)
Definition S1 : Z := 1000000000.
Definition reg (n : list N) (f o : N) (ms : option Z) : mevent := ERegister f (Params (nm n) 0 o 10 1 ms).
Definition ok : mevent := EFib 0 ROk.
(** a route for 10 seconds is there for 10 seconds; the update that renews it replaces its scheduled call *)
Definition lease : list mevent := [reg [1%N] 300 0 (Some 10000%Z); ok; EClock (9 * S1); reg [1%N] 300 0 (Some 10000%Z); ok; EClock (10 * S1); EFire 0].
Definition lease_end : list mevent := lease ++ [EClock (19 * S1); EFire 1; ok].
Definition routes_b (M : mgr) : list (N * N * option Z) := map (fun r => (r_face r, r_origin r, r_expires r)) (routes_at (q_rib (m_q M)) (nm [1%N])).
Definition summary (M : mgr) := (routes_b M, map t_at (m_timers M), map ru_action (m_jobs M), map (fun x => (fst (fst x), snd x)) (q_log (m_q M))).
Example lease_ex : summary <$> m_run lease = Some ([(300%N, 0%N, Some (19 * S1)%Z)], [(19 * S1)%Z], [Register; Register], [(0%N, true); (1%N, true)]).
Proof. vm_compute. reflexivity. Qed.
Example lease_end_ex : summary <$> m_run lease_end = Some ([], [], [Register; Register; Unregister], [(0%N, true); (1%N, true); (2%N, true)]).
Proof. vm_compute. reflexivity. Qed.
(** the premises of the theorem, in executable form *)
Definition gone_b (M : mgr) : bool :=
  bool_decide (report_numbers M = map N.of_nat (seq 0 (length (m_jobs M)))) &&
  forallb (fun x => snd x || match ru_action (snd (fst x)) with Register => true | _ => false end) (q_log (m_q M)) && forallb (fun x => (m_now M <? t_at x)%Z) (m_timers M).
Lemma gone_b_ok M : gone_b M = true -> all_reported M /\ removals_done M /\ none_due M.
Proof.
  unfold gone_b. rewrite !andb_true_iff. intros [[H1%bool_decide_eq_true H2] H3]. split; [done|]. split.
  - intros i u Hin. rewrite forallb_forall in H2. apply elem_of_list_In in Hin. specialize (H2 _ Hin). simpl in H2. by destruct (ru_action u).
  - intros x Hx. rewrite forallb_forall in H3. apply elem_of_list_In in Hx. specialize (H3 _ Hx). simpl in H3. by apply Z.ltb_lt in H3.
Qed.
Example gone_ex : exists M, m_run lease = Some M /\ all_reported M /\ removals_done M /\ none_due M /\ route_in M (nm [1%N]) 300 0 = Some (Route 300 0 10 1 (Some (19 * S1)%Z)).
Proof.
  destruct (m_run lease) as [M|] eqn:E; [|exfalso; assert (bool_decide (is_Some (summary <$> m_run lease)) = true) as K by (vm_compute; reflexivity); rewrite E in K; discriminate K]. exists M. split; [done|].
  assert (option_map gone_b (m_run lease) = Some true) as K by (vm_compute; reflexivity). rewrite E in K. injection K as K%gone_b_ok. destruct K as (K1 & K2 & K3). do 3 (split; [done|]).
  assert (option_map (fun M => route_in M (nm [1%N]) 300 0) (m_run lease) = Some (Some (Route 300 0 10 1 (Some (19 * S1)%Z)))) as K by (vm_compute; reflexivity). rewrite E in K. by injection K.
Qed.

(** C68: a route that was registered again may be removed before it is due, when the FIB was busy at the time of its first
    expiry: the new registration waits in the queue, does not call off the first one's removal, and is followed by it *)
Definition early : list mevent :=
  [reg [1%N] 300 0 (Some 10000%Z); ok; EClock (9 * S1); reg [2%N] 400 0 None; reg [1%N] 300 0 (Some 100000%Z); EClock (10 * S1); EFire 0; ok; ok; ok].
Theorem C68_early_refuted :
  exists l M i n r t, m_run l = Some M /\
    (forall e, e ∈ l -> match e with EUnregister _ _ | EFaceGone _ | EActive _ => False | _ => True end) /\
    is_job M i (RibUpdate Register n r) /\ reported M i true /\ (forall j r', is_job M j (RibUpdate Register n r') -> (j <= i)%N) /\
    all_reported M /\ r_expires r = Some t /\ (m_now M < t)%Z /\ route_in M n (r_face r) (r_origin r) = None.
Proof.
  destruct (m_run early) as [M|] eqn:E; [|exfalso; assert (bool_decide (is_Some (summary <$> m_run early)) = true) as K by (vm_compute; reflexivity); rewrite E in K; discriminate K].
  assert (option_map (fun M => (gone_b M, m_now M, m_jobs M !! 2%nat, route_in M (nm [1%N]) 300 0, existsb (fun x => (fst (fst x) =? 2)%N && snd x) (q_log (m_q M)))) (m_run early) =
          Some (true, (10 * S1)%Z, Some (RibUpdate Register (nm [1%N]) (Route 300 0 10 1 (Some (109 * S1)%Z))), None, true)) as K by (vm_compute; reflexivity).
  rewrite E in K. cbn [option_map] in K. injection K as K1 K2 K3 K4 K5. apply gone_b_ok in K1 as [K1 _].
  exists early, M, 2%N, (nm [1%N]), (Route 300 0 10 1 (Some (109 * S1)%Z)), (109 * S1)%Z. split; [done|]. split.
  { apply Forall_forall. by repeat constructor. }
  split; [done|]. split.
  { apply existsb_exists in K5 as ([[i u] b] & Hin & Hb). simpl in Hb. apply andb_true_iff in Hb as [->%N.eqb_eq ->]. exists u. by apply elem_of_list_In. }
  split.
  { assert (option_map (fun M => forallb (fun x => match ru_action x with Register => false | _ => true end) (drop 3 (m_jobs M))) (m_run early) = Some true) as K by (vm_compute; reflexivity). rewrite E in K. injection K as K.
    intros j r' Hj. destruct (decide (j <= 2)%N) as [|Hn]; [done|]. exfalso. rewrite forallb_forall in K. assert (Hin : RibUpdate Register (nm [1%N]) r' ∈ drop 3 (m_jobs M)).
    { apply elem_of_list_lookup. exists (N.to_nat j - 3)%nat. rewrite lookup_drop. replace (3 + (N.to_nat j - 3))%nat with (N.to_nat j) by lia. done. }
    apply elem_of_list_In, K in Hin. done. }
  split; [done|]. split; [done|]. split; [rewrite K2; done|done].
Qed.
Print Assumptions C68_early_refuted.
(** C68: a route stays after its time when its unregistration failed before, since that one called off the removal *)
Definition linger : list mevent :=
  [reg [1%N] 300 0 (Some 10000%Z); ok; reg [1%N] 300 65 None; ok; EUnregister 300 (Params (nm [1%N]) 0 0 0 0 None); EFib 0 RFaceGone; EClock (20 * S1)].
Theorem C68_gone_refuted :
  exists l M n f o r t, m_run l = Some M /\ all_reported M /\ none_due M /\ route_in M n f o = Some r /\ r_expires r = Some t /\ (t < m_now M)%Z.
Proof.
  destruct (m_run linger) as [M|] eqn:E; [|exfalso; assert (bool_decide (is_Some (summary <$> m_run linger)) = true) as K by (vm_compute; reflexivity); rewrite E in K; discriminate K].
  exists linger, M, (nm [1%N]), 300%N, 0%N, (Route 300 0 10 1 (Some (10 * S1)%Z)), (10 * S1)%Z.
  assert (option_map (fun M => (report_numbers M, length (m_jobs M), length (m_timers M), route_in M (nm [1%N]) 300 0, m_now M)) (m_run linger) =
          Some ([0; 1; 2]%N, 3%nat, 0%nat, Some (Route 300 0 10 1 (Some (10 * S1)%Z)), (20 * S1)%Z)) as K by (vm_compute; reflexivity).
  rewrite E in K. cbn [option_map] in K. injection K as K1 K2 K3 K4 K5. split; [done|]. split; [unfold all_reported; by rewrite K1, K2|]. split; [|split; [done|split; [done|by rewrite K5]]].
  intros x Hx. apply nil_length_inv in K3. rewrite K3 in Hx. destruct (not_elem_of_nil _ Hx).
Qed.
Print Assumptions C68_gone_refuted.
(** C68: a period that has more nanoseconds than 64 bits hold makes the computation of the time overflow *)
Theorem C68_defined_refuted : exists f p d, p_period p = Some d /\ (0 <= d < 2 ^ 63 - 1)%Z /\ m_run [ERegister f p] = None.
Proof. exists 300%N, (Params (nm [1%N]) 0 0 0 0 (Some 9223372036855%Z)), 9223372036855%Z. split; [done|]. split; [done|]. vm_compute. reflexivity. Qed.
Print Assumptions C68_defined_refuted.

(** an announcement for a minute, valid by the system clock for another 20 seconds, learned on face 300, renewed twice *)
Definition pa1 : announcement := Announce (nm [1%N]) 60000 (Some (0, 120 * S1)%Z).
Definition learn : list mevent :=
  [ESlAnnounce pa1 300 10000 true (100 * S1)%Z; ok; EClock (5 * S1); ESlRenew (nm [1%N; 7%N]) 300 10000; ok; EClock (14 * S1); ESlRenew (nm [1%N]) 300 10000; ok].
Definition replies (l : list mevent) (e : mevent) : option (list reply) := match m_run l with Some M => snd <$> m_step e M | None => None end.
Example learn_ex : option_map (fun M => (routes_b M, map t_at (m_timers M), length (m_jobs M))) (m_run learn) = Some ([(300%N, 129%N, Some (20 * S1)%Z)], [(20 * S1)%Z], 3%nat) /\
  replies learn (ESlRenew (nm [1%N]) 300 10000) = Some [RLater 3] /\ replies (learn ++ [EClock (20 * S1)]) (ESlRenew (nm [1%N]) 300 10000) = Some [RResult SlExpired] /\
  replies learn (ESlRenew (nm [1%N]) 301 10000) = Some [RResult SlNotFound] /\
  (match m_run learn with Some M => sl_find_ann (nm [1%N; 2%N]) M | None => None end) = Some (Some (FAnnounced pa1)) /\
  (match m_run lease with Some M => sl_find_ann (nm [1%N; 2%N]) M | None => None end) = Some (Some (FMade (nm [1%N]) 15000)) /\
  (match m_run lease with Some M => sl_find_ann (nm [2%N]) M | None => None end) = Some None.
Proof. vm_compute. repeat split. Qed.
Example replies_ex :
  replies [] (ERegister 7 (Params (nm (map N.of_nat (seq 0 33))) 0 0 0 0 None)) = Some [RResponse 414 None] /\
  replies [] (ERegister 7 (Params (nm (map N.of_nat (seq 0 32))) 0 0 0 0 None)) = Some [RResponse 200 (Some (Params (nm (map N.of_nat (seq 0 32))) 7 0 0 0 None))] /\
  replies [] (EAnnounce 7 pa1 false 0) = Some [RResponse 403 None] /\
  replies [] (EAnnounce 7 pa1 true (100 * S1)) = Some [RResponse 200 (Some (Params (nm [1%N]) 7 129 2048 1 (Some 20000%Z)))] /\
  replies [] (EAnnounce 7 pa1 true (121 * S1)) = Some [RResponse 200 (Some (Params (nm [1%N]) 7 129 2048 1 (Some 0%Z)))] /\
  option_map (fun M => map (fun u => (ru_action u, r_face (ru_route u))) (drop 2 (m_jobs M))) (m_run [reg [1%N] 300 0 None; reg [2%N] 301 0 None; ok; ok; EActive [301%N]; ok]) = Some [(RemoveFace, 300%N)] /\
  option_map list_entries (m_run (lease ++ [reg [0%N] 300 1 None; ok])) = Some [(nm [0%N], [(300, 1, 10, 1, None)%N]); (nm [1%N], [((300, 0, 10, 1)%N, Some 9000%Z)])].
Proof. vm_compute. repeat split. Qed.
(** C69: a learned route above the next entry is not found for renewal *)
Theorem C69_longest_refuted :
  exists l M n f p r pa e, m_run l = Some M /\ p `prefix_of` n /\ route_in M p f 129 = Some r /\ ann_of M p r = Some (pa, e) /\
    exists M', m_step (ESlRenew n f 10000) M = Some (M', [RResult SlNotFound]).
Proof.
  set (l := learn ++ [reg [1%N; 2%N] 400 0 None; ok; ok]). destruct (m_run l) as [M|] eqn:E; [|exfalso; assert (bool_decide (is_Some (summary <$> m_run l)) = true) as K by (vm_compute; reflexivity); rewrite E in K; discriminate K].
  exists l, M, (nm [1%N; 2%N; 3%N]), 300%N, (nm [1%N]), (Route 300 129 2048 1 (Some (20 * S1)%Z)), pa1, (20 * S1)%Z.
  assert (option_map (fun M => (route_in M (nm [1%N]) 300 129, ann_of M (nm [1%N]) (Route 300 129 2048 1 (Some (20 * S1)%Z)))) (m_run l) = Some (Some (Route 300 129 2048 1 (Some (20 * S1)%Z)), Some (pa1, (20 * S1)%Z))) as K by (vm_compute; reflexivity).
  rewrite E in K. cbn [option_map] in K. injection K as K1 K2. split; [done|]. split; [by exists (nm [2%N; 3%N])|]. split; [done|]. split; [done|].
  assert (replies l (ESlRenew (nm [1%N; 2%N; 3%N]) 300 10000) = Some [RResult SlNotFound]) as K by (vm_compute; reflexivity). unfold replies in K. rewrite E in K. destruct (m_step _ M) as [[M' out]|]; [|done]. injection K as ->. by exists M'.
Qed.
Print Assumptions C69_longest_refuted.
(** C69: until the removal of a route that is due has been done, the listing has a negative rest of its time, which becomes
    a huge number in the dataset *)
Theorem C69_list_refuted : exists l M n rows f o c fl d, m_run l = Some M /\ (n, rows) ∈ list_entries M /\ (f, o, c, fl, Some d) ∈ rows /\ (d < 0)%Z.
Proof.
  set (l := lease ++ [EClock (20 * S1)]). destruct (m_run l) as [M|] eqn:E; [|exfalso; assert (bool_decide (is_Some (summary <$> m_run l)) = true) as K by (vm_compute; reflexivity); rewrite E in K; discriminate K].
  assert (option_map list_entries (m_run l) = Some [(nm [1%N], [((300, 0, 10, 1)%N, Some (-1000)%Z)])]) as K by (vm_compute; reflexivity). rewrite E in K. cbn [option_map] in K. injection K as K.
  exists l, M, (nm [1%N]), [((300, 0, 10, 1)%N, Some (-1000)%Z)], 300%N, 0%N, 10%N, 1%N, (-1000)%Z. rewrite K. split; [done|]. split; [left|]. split; [left|done].
Qed.
Print Assumptions C69_list_refuted.
