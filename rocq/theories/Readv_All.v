(** Readvertising, in every run. *)
From stdpp Require Import gmap.
From Verif Require Import Lib Name_Model Name_Proof Rib_Model Rib_Hier Rib_Inv Readv_Model Readv_Spec Readv_Proof Readv_Run.

Lemma signer_snoc pol l e p : signer_of pol (l ++ [e]) p = match e with
    | VAdd k c => match p_handle pol k c with Some a => if name_eqb (a_prefix a) p then Some (a_signer a) else signer_of pol l p | None => signer_of pol l p end
    | _ => signer_of pol l p end.
Proof. unfold signer_of. by rewrite fold_left_app. Qed.
Lemma asked_mono pol l k p c : asked pol l p c -> asked pol (l ++ k) p c.
Proof. intros (k1 & c1 & a & H & E). exists k1, c1, a. split; [|done]. apply elem_of_app. by left. Qed.
Definition delay_ok (d : N) : Prop := (RETRY_DELAY_MIN <= d <= RETRY_DELAY_MAX)%N.
Definition timer_ok (pol : policy) (t : option (vop * N)) : Prop :=
  match t with
  | Some (o, d) => (o = Advertise /\ d = p_refresh pol) \/ (2 * RETRY_DELAY_MIN <= d <= RETRY_DELAY_MAX)%N
  | None => True
  end.
Definition told (pol : policy) (l : list vevent) (r : rr) : Prop := signer_of pol l (rr_prefix r) = Some (rr_signer r) /\ asked pol l (rr_prefix r) (rr_cost r).
Record good (pol : policy) (r : rr) : Prop := { g_delay : delay_ok (rr_delay r); g_timer : timer_ok pol (rr_timer r) }.
Record binv (v : rv) : Prop := {
  b_ids : NoDup (map rr_id (v_rrs v));
  b_pfx : NoDup (map rr_prefix (v_rrs v));
  b_lt : forall r, r ∈ v_rrs v -> (rr_id r < v_next v)%N }.
(** what operations on a node keep *)
Record same (r r' : rr) : Prop := { sm_id : rr_id r' = rr_id r; sm_p : rr_prefix r' = rr_prefix r; sm_c : rr_cost r' = rr_cost r; sm_s : rr_signer r' = rr_signer r }.
(** every node of the second state is one of the first *)
Definition from (pol : policy) (v v' : rv) : Prop := forall r', r' ∈ v_rrs v' -> exists r, r ∈ v_rrs v /\ same r r' /\ (good pol r -> good pol r').
(** the destination sees only what the nodes say *)
Definition sees (v v' : rv) : Prop := exists new, v_seen v' = v_seen v ++ new /\ forall p c s, SeenAdvertise p c s ∈ new -> exists r, r ∈ v_rrs v' /\ rr_prefix r = p /\ rr_cost r = c /\ rr_signer r = s.
Lemma same_refl r : same r r. Proof. done. Qed.
Lemma same_trans a b c : same a b -> same b c -> same a c.
Proof. intros [] []. split; congruence. Qed.
Lemma from_refl pol v : from pol v v.
Proof. intros r Hr. by exists r. Qed.
Lemma from_trans pol a b c : from pol a b -> from pol b c -> from pol a c.
Proof.
  intros H1 H2 r Hr. destruct (H2 r Hr) as (r2 & Hr2 & S2 & G2). destruct (H1 r2 Hr2) as (r1 & Hr1 & S1 & G1). exists r1. split; [done|]. split; [by eapply same_trans|auto].
Qed.
Lemma on_id_from pol id f v : (forall r, r ∈ v_rrs v -> rr_id r = id -> same r (f r) /\ (good pol r -> good pol (f r))) -> from pol v (on_id id f v).
Proof.
  intros H r' (r & -> & Hr)%elem_of_list_fmap. exists r. split; [done|]. destruct (has_id id r) eqn:E; [|done]. apply N.eqb_eq in E. by apply H.
Qed.
Lemma on_id_binv id f v : binv v -> (forall r, rr_id (f r) = rr_id r /\ rr_prefix (f r) = rr_prefix r) -> binv (on_id id f v).
Proof.
  intros [B1 B2 B3] H. split; simpl.
  - rewrite map_map. erewrite map_ext; [exact B1|]. intros r. simpl. destruct (has_id id r); [|done]. apply H.
  - rewrite map_map. erewrite map_ext; [exact B2|]. intros r. simpl. destruct (has_id id r); [|done]. apply H.
  - intros x (r & -> & Hr)%elem_of_list_fmap. destruct (has_id id r); [rewrite (proj1 (H r))|]; by apply B3.
Qed.
Lemma sub_binv v l : binv v -> (exists p, l = List.filter p (v_rrs v)) -> binv (set_rrs l v).
Proof.
  intros [B1 B2 B3] [p ->]. split; simpl; [by apply nodup_map_filter..|]. intros r [Hr _]%in_lfilter. by apply B3.
Qed.
Lemma sub_from pol v p : from pol v (set_rrs (List.filter p (v_rrs v)) v).
Proof. intros r [Hr _]%in_lfilter. by exists r. Qed.
Lemma good_n pol n r : good pol r -> good pol (with_n n r). Proof. by intros []. Qed.
Lemma good_min pol r : timer_ok pol (rr_timer r) -> good pol (with_delay RETRY_DELAY_MIN r).
Proof. intros H. split; [|done]. simpl. unfold delay_ok, RETRY_DELAY_MIN, RETRY_DELAY_MAX. lia. Qed.
Lemma good_failed pol o r : good pol r -> good pol (failed o r).
Proof. intros [H1 H2]. unfold delay_ok, RETRY_DELAY_MIN, RETRY_DELAY_MAX in *. split; unfold failed; simpl; unfold delay_ok, RETRY_DELAY_MIN, RETRY_DELAY_MAX; [lia|]. right. lia. Qed.
Lemma advertise_sees id v v' : advertise id v = Some v' -> v_rrs v' = v_rrs v /\ v_next v' = v_next v /\ v_avail v' = v_avail v /\ sees v v'.
Proof.
  intros (r & F & E)%obind_inv. destruct (rr_n r =? 0)%N; [done|]. destruct (v_avail v) eqn:Ha; injection E as <-; repeat (split; [done|]).
  - eexists. split; [done|]. intros p c s Hs%elem_of_list_singleton. injection Hs as -> -> ->. apply find_some_in in F as [Hr _]. by exists r.
  - exists []. split; [by rewrite app_nil_r|]. intros p c s []%elem_of_nil.
Qed.
Lemma withdraw_sees pol id v v' : withdraw id v = Some v' -> from pol v v' /\ (binv v -> binv v') /\ v_avail v' = v_avail v /\ sees v v'.
Proof.
  intros (r & F & E)%obind_inv. destruct (negb _); [done|]. destruct (v_avail v) eqn:Ha; injection E as <-.
  - split; [exact (from_refl pol v)|]. split; [by intros []|]. split; [done|]. eexists. split; [done|]. intros p c s Hs%elem_of_list_singleton. done.
  - split; [apply sub_from|]. split; [intros B; apply sub_binv; [done|by eexists]|]. split; [done|]. exists []. split; [by rewrite app_nil_r|]. intros p c s []%elem_of_nil.
Qed.
Lemma sees_trans a b c : sees a b -> v_rrs c = v_rrs b -> sees b c -> sees a c.
Proof.
  intros (n1 & E1 & H1) Er (n2 & E2 & H2). exists (n1 ++ n2). split; [by rewrite E2, E1, app_assoc|]. intros p d s [H|H]%elem_of_app; [rewrite Er; by apply H1|by apply H2].
Qed.
Lemma sees_none v v' : v_seen v' = v_seen v -> sees v v'.
Proof. intros E. exists []. split; [by rewrite app_nil_r|]. intros p c s []%elem_of_nil. Qed.
Lemma sees_before a b c : v_seen a = v_seen b -> sees b c -> sees a c.
Proof. intros E (n & H). exists n. by rewrite E. Qed.
Lemma adv_each pol ids v v' : each_of (fun id v => advertise id (on_id id (with_delay RETRY_DELAY_MIN) v)) ids v = Some v' ->
  from pol v v' /\ (binv v -> binv v') /\ v_avail v' = v_avail v /\
  exists new, v_seen v' = v_seen v ++ new /\ forall p c s, SeenAdvertise p c s ∈ new -> exists r, r ∈ v_rrs v /\ rr_prefix r = p /\ rr_cost r = c /\ rr_signer r = s.
Proof.
  revert v. induction ids as [|id ids IH]; intros v; simpl.
  - intros [= ->]. split; [apply from_refl|]. split; [done|]. split; [done|]. exists []. split; [by rewrite app_nil_r|]. intros p c s []%elem_of_nil.
  - set (v1 := on_id id _ v). destruct (advertise id v1) as [v2|] eqn:E; [|done]. intros (F & B & Ha & n2 & En & Hn)%IH. apply advertise_sees in E as (E1 & E2 & E3 & (n1 & En1 & Hn1)).
    assert (F1 : from pol v v1). { apply on_id_from. intros r _ _. split; [done|]. intros [G1 G2]. by apply good_min. }
    assert (F2 : from pol v v2) by (intros r Hr; rewrite E1 in Hr; by apply F1). split; [by eapply from_trans|]. split; [|split].
    + intros B0. apply B. assert (B1 : binv v1) by (by apply on_id_binv). destruct B1 as [B1 B2 B3]. split; rewrite ?E1, ?E2; done.
    + by rewrite Ha, E3.
    + exists (n1 ++ n2). split; [by rewrite En, En1, app_assoc|]. assert (Hback : forall p c s, (exists r, r ∈ v_rrs v2 /\ rr_prefix r = p /\ rr_cost r = c /\ rr_signer r = s) -> exists r, r ∈ v_rrs v /\ rr_prefix r = p /\ rr_cost r = c /\ rr_signer r = s).
      { intros p c s (r & Hr & <- & <- & <-). destruct (F2 r Hr) as (r0 & Hr0 & S0 & _). exists r0. destruct S0. by rewrite sm_p0, sm_c0, sm_s0. }
      intros p c s [H|H]%elem_of_app; apply Hback; [by apply Hn1|by apply Hn].
Qed.
Lemma from_told pol l v v' : from pol v v' -> (forall r, r ∈ v_rrs v -> told pol l r /\ good pol r) -> forall r, r ∈ v_rrs v' -> told pol l r /\ good pol r.
Proof. intros F H r Hr. destruct (F r Hr) as (r0 & Hr0 & [S1 S2 S3 S4] & G). destruct (H r0 Hr0) as [T G0]. split; [|by apply G]. unfold told. by rewrite S2, S3, S4. Qed.
(** events other than a new route *)
Lemma other_step pol e v v' : binv v -> v_step pol e v = Some v' -> (forall k c, e <> VAdd k c) -> from pol v v' /\ binv v' /\ sees v v'.
Proof.
  intros B E He. destruct e as [k c|k|b|i ok|p]; [by destruct (He k c)|..]; simpl in E.
  - unfold before_remove in E. destruct (List.find _ (v_map v)) as [[k0 id]|]; [|injection E as <-; split; [apply from_refl|split; [done|by apply sees_none]]]. apply obind_inv in E as (r & F & E).
    set (v1 := set_map _ v) in *. set (v2 := on_id id (with_n (rr_n r - 1)) v1) in *.
    assert (F2 : from pol v v2). { apply (on_id_from pol id (with_n (rr_n r - 1)) v1). intros x _ _. split; [done|]. apply good_n. }
    assert (B1 : binv v1) by (by destruct B). assert (B2 : binv v2) by (by apply on_id_binv). destruct (0 <? rr_n r - 1)%N; [injection E as <-; split; [done|split; [done|by apply sees_none]]|].
    apply (withdraw_sees pol) in E as (F3 & B3 & _ & S3). split; [|split].
    + eapply from_trans; [exact F2|]. eapply from_trans; [|exact F3]. apply on_id_from. intros x _ _. split; [done|]. intros [G1 G2]. by apply good_min.
    + apply B3. by apply on_id_binv.
    + by apply (sees_before _ _ _ eq_refl S3).
  - unfold set_availability in E. destruct (Bool.eqb b (v_avail v)); [injection E as <-; split; [apply from_refl|split; [done|by apply sees_none]]|]. destruct b.
    + destruct (adv_each pol _ _ _ E) as (F & B' & _ & n & En & Hn). split; [exact F|]. split; [apply B'; by destruct B|]. exists (SeenUp :: n). split; [rewrite En; simpl; by rewrite <-app_assoc|].
      assert (Es : forall r, r ∈ v_rrs v -> exists r', r' ∈ v_rrs v' /\ same r r').
      { clear -E. change (v_rrs v) with (v_rrs (set_avail true [SeenUp] v)). revert E. generalize (set_avail true [SeenUp] v) as w. intros w. generalize (map rr_id (v_rrs w)) as ids. intros ids. revert w.
        induction ids as [|id ids IH]; intros w; simpl; [intros [= ->] r Hr; by exists r|]. destruct (advertise id _) as [w2|] eqn:Ea; [|done]. intros E r Hr.
        apply advertise_sees in Ea as (E1 & _). destruct (IH w2 E (if has_id id r then with_delay RETRY_DELAY_MIN r else r)) as (r' & Hr' & S'); [rewrite E1; apply elem_of_list_fmap; by exists r|].
        exists r'. split; [done|]. destruct (has_id id r); [|done]. by destruct S'. }
      intros p c s [?|H]%elem_of_cons; [done|]. destruct (Hn p c s H) as (r & Hr & <- & <- & <-). destruct (Es r Hr) as (r' & Hr' & []). by exists r'.
    + injection E as <-. split; [|split; [|by apply sees_none; simpl; rewrite app_nil_r]].
      * intros r' (r & -> & [Hr _]%in_lfilter)%elem_of_list_fmap. exists r. split; [done|]. split; [done|]. by intros [].
      * destruct B as [B1 B2 B3]. split; simpl; rewrite ?map_map; simpl; [by apply nodup_map_filter..|]. intros r' (r & -> & [Hr _]%in_lfilter)%elem_of_list_fmap. simpl. by apply B3.
  - destruct (v_out v !! i) as [c|]; [|injection E as <-; split; [apply from_refl|split; [done|by apply sees_none]]]. apply obind_inv in E as (r & F & E). injection E as <-.
    set (v1 := set_vout _ v). assert (B1 : binv v1) by (by destruct B). destruct (s_op c), ok.
    + split; [|split; [by apply on_id_binv|by apply sees_none]]. apply (on_id_from pol _ _ v1). intros x _ _. split; [done|]. intros [G1 G2]. apply (good_min pol (with_timer (Some (Advertise, p_refresh pol)) x)). by left.
    + split; [|split; [by apply on_id_binv|by apply sees_none]]. apply (on_id_from pol _ _ v1). intros x _ _. split; [done|]. apply good_failed.
    + split; [apply (sub_from pol v1)|]. split; [apply (sub_binv v1); [done|by eexists]|by apply sees_none].
    + split; [|split; [by apply on_id_binv|by apply sees_none]]. apply (on_id_from pol _ _ v1). intros x _ _. split; [done|]. apply good_failed.
  - destruct (List.find _ (v_rrs v)) as [r|]; [|injection E as <-; split; [apply from_refl|split; [done|by apply sees_none]]]. destruct (rr_timer r) as [[o d]|]; [|injection E as <-; split; [apply from_refl|split; [done|by apply sees_none]]].
    set (v1 := on_id (rr_id r) (with_timer None) v) in *. assert (B1 : binv v1) by (by apply on_id_binv). assert (F1 : from pol v v1). { apply on_id_from. intros x _ _. split; [done|]. by intros []. }
    destruct o.
    + apply advertise_sees in E as (E1 & E2 & E3 & S). split; [intros x Hx; rewrite E1 in Hx; by apply F1|]. split; [|by apply (sees_before _ _ _ eq_refl S)]. destruct B1. split; rewrite ?E1, ?E2; done.
    + apply (withdraw_sees pol) in E as (F3 & B3 & _ & S). split; [by eapply from_trans|]. split; [by apply B3|]. by apply (sees_before _ _ _ eq_refl S).
Qed.
Lemma add_all pol k c a v v' l :
  binv v -> (forall r, r ∈ v_rrs v -> told pol l r /\ good pol r) -> p_handle pol k c = Some a -> v_step pol (VAdd k c) v = Some v' ->
  binv v' /\ sees v v' /\ (forall r, r ∈ v_rrs v' -> told pol (l ++ [VAdd k c]) r /\ good pol r).
Proof.
  intros B Hall Ea E. simpl in E. unfold after_add in E. rewrite Ea in E.
  set (fnd := List.find (fun r => name_eqb (rr_prefix r) (a_prefix a)) (v_rrs v)) in *.
  (* the state with the node, and what it was made of *)
  assert (Hst : exists id v1, (match fnd with
                       | Some r => (rr_id r, v)
                       | None => (v_next v, RV (v_rrs v ++ [RR (v_next v) (a_prefix a) (a_cost a) 0 0 0 None]) (v_map v) (v_avail v) (v_out v) (v_seen v) (v_next v + 1)%N)
                       end) = (id, v1) /\ binv v1 /\ v_seen v1 = v_seen v /\
     (forall r, r ∈ v_rrs v1 -> (rr_id r <> id -> told pol (l ++ [VAdd k c]) r /\ good pol r) /\
        (rr_id r = id -> rr_prefix r = a_prefix a /\ asked pol (l ++ [VAdd k c]) (rr_prefix r) (rr_cost r) /\ timer_ok pol (rr_timer r) /\ (rr_n r <> 0%N -> good pol r)))).
  { assert (Hkeep : forall r, r ∈ v_rrs v -> rr_prefix r <> a_prefix a -> told pol (l ++ [VAdd k c]) r).
    { intros r Hr Hne. destruct (Hall r Hr) as [[T1 T2] _]. split; [|by apply asked_mono]. rewrite signer_snoc, Ea, name_eqb_neq' by congruence. done. }
    destruct fnd as [r0|] eqn:Ef; subst fnd; eexists _, _; (split; [reflexivity|]).
    - apply find_some_in in Ef as [Hr0 Ep]. apply name_eqb_eq in Ep. split; [done|]. split; [done|]. intros r Hr. destruct B as [B1 B2 B3]. split.
      + intros Hne. split; [|by apply Hall]. apply Hkeep; [done|]. intros E1. apply Hne. by rewrite (nodup_map_inj rr_prefix (v_rrs v) r r0) by (try done; congruence).
      + intros Hid. assert (r = r0) as -> by (by apply (nodup_map_inj rr_id (v_rrs v))). destruct (Hall r0 Hr0) as [[T1 T2] G]. split; [done|]. split; [by apply asked_mono|]. split; [apply G|done].
    - pose proof (find_pfx_none _ _ Ef) as Hnew. destruct B as [B1 B2 B3]. split; [|split; [done|]].
      + split; simpl.
        * rewrite map_app. apply NoDup_app. split; [done|]. split; [|apply NoDup_singleton]. intros i (x & -> & Hx)%elem_of_list_fmap E1%elem_of_list_singleton. apply B3 in Hx. simpl in E1. lia.
        * rewrite map_app. apply NoDup_app. split; [done|]. split; [|apply NoDup_singleton]. intros i (x & -> & Hx)%elem_of_list_fmap E1%elem_of_list_singleton. by apply (Hnew x).
        * intros x [Hx| ->%elem_of_list_singleton]%elem_of_app; [apply B3 in Hx; lia|simpl; lia].
      + simpl. intros r [Hr| ->%elem_of_list_singleton]%elem_of_app.
        * split; [intros _; split; [by apply Hkeep, Hnew|by apply Hall]|]. intros E1. apply B3 in Hr. lia.
        * split; [done|]. intros _. split; [done|]. split; [|done]. exists k, c, a. split; [|done]. apply elem_of_app. right. left. }
  destruct Hst as (id & v1 & Est & B1 & Es1 & Hn). rewrite Est in E. set (v2 := on_id id (with_signer (a_signer a)) v1) in *. destruct (List.find _ (v_map v2)); [done|].
  set (v3 := set_map _ v2) in *. apply obind_inv in E as (r & F & E). assert (B2 : binv v2) by (by apply on_id_binv). assert (B3 : binv v3) by (by destruct B2).
  set (v4 := on_id id (with_n (rr_n r + 1)) v3) in *. assert (B4 : binv v4) by (by apply on_id_binv).
  apply (find_id_iff v3 id r) in F as [Hr Eid]; [|apply B3].
  assert (Hr1 : exists r1, r1 ∈ v_rrs v1 /\ rr_id r1 = id /\ r = with_signer (a_signer a) r1).
  { apply elem_of_list_fmap in Hr as (r1 & -> & Hr1). destruct (has_id id r1) eqn:Ei; [exists r1; split; [done|]; split; [by apply N.eqb_eq|done]|]. unfold has_id in Ei. by rewrite Eid, N.eqb_refl in Ei. }
  destruct Hr1 as (r1 & Hr1 & Ei1 & ->). cbn [rr_n with_signer] in *.
  assert (H4 : forall x, x ∈ v_rrs v4 -> (rr_id x <> id /\ x ∈ v_rrs v1) \/ x = with_n (rr_n r1 + 1) (with_signer (a_signer a) r1)).
  { intros x (y & -> & (z & -> & Hz)%elem_of_list_fmap)%elem_of_list_fmap. destruct (has_id id z) eqn:Ez; [|rewrite Ez; left; split; [by apply N.eqb_neq|done]]. right. unfold has_id in Ez |- *. simpl. rewrite Ez.
    apply N.eqb_eq in Ez. f_equal. f_equal. apply (nodup_map_inj rr_id (v_rrs v1)); try done; [apply B1|congruence]. }
  destruct (Hn r1 Hr1) as [_ Hx]. destruct (Hx Ei1) as (Ep & Hask & Htm & Hgood).
  assert (Htold : told pol (l ++ [VAdd k c]) (with_n (rr_n r1 + 1) (with_signer (a_signer a) r1))).
  { split; [|done]. rewrite signer_snoc, Ea. simpl. by rewrite Ep, name_eqb_refl. }
  destruct (N.ltb_spec 0 (rr_n r1)) as [Hpos|Hz].
  - injection E as <-. split; [done|]. split; [by apply sees_none|]. intros x [[Hne Hx1]| ->]%H4; [by apply Hn|]. split; [done|]. destruct Hgood; [lia|]. by split.
  - apply advertise_sees in E as (E1 & E2 & E3 & S). set (v5 := on_id id (with_delay RETRY_DELAY_MIN) v4) in *. assert (B5 : binv v5) by (by apply on_id_binv).
    split; [destruct B5; split; rewrite ?E1, ?E2; done|]. split; [by apply (sees_before _ v5)|]. intros x Hx5. rewrite E1 in Hx5. apply elem_of_list_fmap in Hx5 as (y & -> & Hy). destruct (H4 y Hy) as [[Hne Hy1]| ->].
    + destruct (has_id id y) eqn:Ey; [by apply N.eqb_eq in Ey|]. by apply Hn.
    + unfold has_id. simpl. rewrite Ei1, N.eqb_refl. split; [done|]. by apply good_min.
Qed.
Lemma all_ok pol l v : v_run pol l = Some v -> binv v /\ forall r, r ∈ v_rrs v -> told pol l r /\ good pol r.
Proof.
  revert v. induction l as [|e l IH] using rev_ind; intros v E.
  { injection E as <-. split; [split; simpl; try apply NoDup_nil_2; intros r []%elem_of_nil|]. intros r []%elem_of_nil. }
  unfold v_run in E, IH. rewrite each_of_app in E. destruct (each_of (v_step pol) l rv_empty) as [v1|] eqn:E1; [|done]. destruct (IH v1 eq_refl) as [B H]. simpl in E. destruct (v_step pol e v1) as [v2|] eqn:E2; [|done]. injection E as <-.
  assert (Hsame : (match e with VAdd k c => p_handle pol k c = None | _ => True end) -> forall r, told pol l r -> told pol (l ++ [e]) r).
  { intros He r [T1 T2]. split; [|by apply asked_mono]. rewrite signer_snoc. destruct e as [k c| | | |]; try done. by rewrite He. }
  destruct e as [k c|k|b|i ok|p]; [destruct (p_handle pol k c) as [a|] eqn:Ea|..].
  - by destruct (add_all pol k c a v1 v2 l B H Ea E2) as (? & _ & ?).
  - simpl in E2. unfold after_add in E2. rewrite Ea in E2. injection E2 as <-. split; [done|]. intros r Hr. destruct (H r Hr). split; [by apply Hsame|done].
  - destruct (other_step pol _ v1 v2 B E2 ltac:(done)) as (F & B' & _). split; [done|]. intros r Hr. destruct (from_told _ _ _ _ F H r Hr). split; [by apply Hsame|done].
  - destruct (other_step pol _ v1 v2 B E2 ltac:(done)) as (F & B' & _). split; [done|]. intros r Hr. destruct (from_told _ _ _ _ F H r Hr). split; [by apply Hsame|done].
  - destruct (other_step pol _ v1 v2 B E2 ltac:(done)) as (F & B' & _). split; [done|]. intros r Hr. destruct (from_told _ _ _ _ F H r Hr). split; [by apply Hsame|done].
  - destruct (other_step pol _ v1 v2 B E2 ltac:(done)) as (F & B' & _). split; [done|]. intros r Hr. destruct (from_told _ _ _ _ F H r Hr). split; [by apply Hsame|done].
Qed.
Lemma all_sees pol l e v v' : v_run pol l = Some v -> v_step pol e v = Some v' -> sees v v'.
Proof.
  intros E1 E2. destruct (all_ok pol l v E1) as [B H]. destruct e as [k c|k|b|i ok|p]; [destruct (p_handle pol k c) as [a|] eqn:Ea|..].
  - by destruct (add_all pol k c a v v' l B H Ea E2) as (_ & ? & _).
  - simpl in E2. unfold after_add in E2. rewrite Ea in E2. injection E2 as <-. by apply sees_none.
  - by destruct (other_step pol _ v v' B E2 ltac:(done)) as (_ & _ & ?).
  - by destruct (other_step pol _ v v' B E2 ltac:(done)) as (_ & _ & ?).
  - by destruct (other_step pol _ v v' B E2 ltac:(done)) as (_ & _ & ?).
  - by destruct (other_step pol _ v v' B E2 ltac:(done)) as (_ & _ & ?).
Qed.
Lemma run_snoc pol l e v v' : v_run pol l = Some v -> v_step pol e v = Some v' -> v_run pol (l ++ [e]) = Some v'.
Proof. intros E1 E2. unfold v_run in *. rewrite each_of_app, E1. simpl. by rewrite E2. Qed.
