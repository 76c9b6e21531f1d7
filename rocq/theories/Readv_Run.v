(** Readvertising when no prefix is touched while a command about it is under way. *)
From stdpp Require Import gmap.
From Verif Require Import Lib Name_Model Name_Proof Rib_Model Rib_Hier Rib_Inv Readv_Model Readv_Spec Readv_Proof.

Lemma upd_inv A D v A' D' r r' out' seen' map' :
  rinv A D v -> r ∈ v_rrs v -> rr_id r' = rr_id r -> rr_prefix r' = rr_prefix r ->
  (forall q, q <> rr_prefix r -> n_routes A' q = n_routes A q /\ D' q = D q /\ ops out' q = ops (v_out v) q /\ last_seen seen' q = last_seen (v_seen v) q) ->
  Forall2 (ref_ok (v_rrs v)) A' map' -> NoDup (map fst A') ->
  node_ok (v_avail v && D' (rr_prefix r)) (n_routes A' (rr_prefix r)) (ops out' (rr_prefix r)) r' ->
  (forall c, c ∈ out' -> c ∈ v_out v \/ (s_prefix c = rr_prefix r /\ s_rr c = rr_id r)) ->
  (v_avail v && D' (rr_prefix r) = true -> is_advertise (last_seen seen' (rr_prefix r)) = negb (n_routes A' (rr_prefix r) =? 0)%nat) ->
  rinv A' D' (RV (map (fun x => if has_id (rr_id r) x then r' else x) (v_rrs v)) map' (v_avail v) out' seen' (v_next v)).
Proof.
  intros I Hr Eid Ep Hq Hm Hk Hn Ho Hs. pose proof (rv_ids _ _ _ I) as Hid. pose proof (rv_pfx _ _ _ I) as Hpfx.
  apply (change A D v A' D' _ (rr_prefix r) (Some r')); simpl; try done.
  - by rewrite upd_ids.
  - by rewrite upd_pfx.
  - intros x. rewrite upd_in by done. intros [[= <-]|[Hx _]]; [rewrite Eid|]; by apply (rv_lt _ _ _ I).
  - intros x. by apply upd_in.
  - eapply Forall2_impl; [exact Hm|]. intros x y. by apply upd_ref.
  - intros x [= <-]. done.
  - intros c Hc. destruct (decide (s_prefix c = rr_prefix r)) as [E|E].
    + right. split; [done|]. exists r'. split; [done|]. rewrite Eid. destruct (Ho c Hc) as [Hc'|[_ ->]]; [|done].
      destruct (rv_out _ _ _ I c Hc') as (z & Hz & <- & E2). by rewrite (nodup_map_inj rr_prefix (v_rrs v) z r) by (try done; congruence).
    + left. split; [done|]. destruct (Ho c Hc) as [Hc'|[? _]]; done.
Qed.
Lemma new_inv A D v A' r' out' seen' map' :
  rinv A D v -> (forall x, x ∈ v_rrs v -> rr_prefix x <> rr_prefix r') -> rr_id r' = v_next v ->
  (forall q, q <> rr_prefix r' -> n_routes A' q = n_routes A q /\ ops out' q = ops (v_out v) q /\ last_seen seen' q = last_seen (v_seen v) q) ->
  Forall2 (ref_ok (v_rrs v ++ [r'])) A' map' -> NoDup (map fst A') ->
  node_ok (v_avail v && D (rr_prefix r')) (n_routes A' (rr_prefix r')) (ops out' (rr_prefix r')) r' ->
  (forall c, c ∈ out' -> c ∈ v_out v \/ (s_prefix c = rr_prefix r' /\ s_rr c = rr_id r')) ->
  (v_avail v && D (rr_prefix r') = true -> is_advertise (last_seen seen' (rr_prefix r')) = negb (n_routes A' (rr_prefix r') =? 0)%nat) ->
  rinv A' D (RV (v_rrs v ++ [r']) map' (v_avail v) out' seen' (v_next v + 1)).
Proof.
  intros I Hf Eid Hq Hm Hk Hn Ho Hs. apply (change A D v A' D _ (rr_prefix r') (Some r')); simpl; try done.
  - intros q Hne. by destruct (Hq q Hne) as (-> & -> & ->).
  - rewrite map_app. apply NoDup_app. split; [apply I|]. split; [|apply NoDup_singleton]. intros i (x & -> & Hx)%elem_of_list_fmap E%elem_of_list_singleton.
    apply (rv_lt _ _ _ I) in Hx. lia.
  - rewrite map_app. apply NoDup_app. split; [apply I|]. split; [|apply NoDup_singleton]. intros i (x & -> & Hx)%elem_of_list_fmap E%elem_of_list_singleton. by apply (Hf x).
  - intros x [Hx| ->%elem_of_list_singleton]%elem_of_app; [apply (rv_lt _ _ _ I) in Hx; lia|lia].
  - intros x. rewrite elem_of_app, elem_of_list_singleton. split; [intros [Hx| ->]|intros [[= ->]|[Hx _]]]; auto.
  - intros x [= <-]. done.
  - intros c Hc. destruct (Ho c Hc) as [Hc'|[E1 E2]].
    + left. split; [|done]. destruct (rv_out _ _ _ I c Hc') as (z & Hz & _ & <-). by apply Hf.
    + right. split; [done|]. by exists r'.
Qed.
Lemma Forall2_impl_in {A B} (P Q : A -> B -> Prop) l k : Forall2 P l k -> (forall x y, x ∈ l -> P x y -> Q x y) -> Forall2 Q l k.
Proof. induction 1 as [|x y l k H _ IH]; intros K; constructor; [apply K; [left|done]|]. apply IH. intros a b Ha. apply K. by right. Qed.
Lemma erase_inv A D v A' r out' map' :
  rinv A D v -> r ∈ v_rrs v -> n_routes A' (rr_prefix r) = 0%nat ->
  (forall q, q <> rr_prefix r -> n_routes A' q = n_routes A q /\ ops out' q = ops (v_out v) q) ->
  Forall2 (ref_ok (v_rrs v)) A' map' -> NoDup (map fst A') -> ops out' (rr_prefix r) = [] -> (forall c, c ∈ out' -> c ∈ v_out v) ->
  (v_avail v && D (rr_prefix r) = true -> is_advertise (last_seen (v_seen v) (rr_prefix r)) = false) ->
  rinv A' D (RV (List.filter (fun x => negb (has_id (rr_id r) x)) (v_rrs v)) map' (v_avail v) out' (v_seen v) (v_next v)).
Proof.
  intros I Hr H0 Hq Hm Hk Hops Ho Hs. pose proof (rv_ids _ _ _ I) as Hid. pose proof (rv_pfx _ _ _ I) as Hpfx.
  assert (Hin : forall x, x ∈ List.filter (fun x => negb (has_id (rr_id r) x)) (v_rrs v) <-> None = Some x \/ (x ∈ v_rrs v /\ rr_prefix x <> rr_prefix r)).
  { intros x. rewrite in_lfilter, negb_true_iff. unfold has_id. rewrite N.eqb_neq. split.
    - intros [Hx Hne]. right. split; [done|]. intros E. apply Hne. by rewrite (nodup_map_inj rr_prefix (v_rrs v) x r).
    - intros [|[Hx Hne]]; [done|]. split; [done|]. intros E. apply Hne. by rewrite (nodup_map_inj rr_id (v_rrs v) x r). }
  apply (change A D v A' D _ (rr_prefix r) None); simpl; try done.
  - intros q Hne. by destruct (Hq q Hne) as (-> & ->).
  - by apply nodup_map_filter.
  - by apply nodup_map_filter.
  - intros x [Hx _]%in_lfilter. by apply (rv_lt _ _ _ I).
  - eapply Forall2_impl_in; [exact Hm|]. intros x y Hx [E (z & Hz & E1 & E2)]. split; [done|]. exists z. split; [|done]. apply Hin. right. split; [done|].
    intros E3. revert H0. apply n_routes_in. exists x. split; [done|]. congruence.
  - intros c Hc. left. split; [|by apply Ho]. intros E. assert (K : ops out' (rr_prefix r) <> []) by (apply ops_in; by exists c). done.
  - rewrite H0. done.
Qed.

Lemma n_routes_snoc A k a q : n_routes (A ++ [(k, a)]) q = ((if name_eqb (a_prefix a) q then 1 else 0) + n_routes A q)%nat.
Proof. unfold n_routes. rewrite List.filter_app, app_length. simpl. destruct (name_eqb _ q); simpl; lia. Qed.
Lemma n_routes_drop A k a q : NoDup (map fst A) -> (k, a) ∈ A ->
  n_routes A q = ((if name_eqb (a_prefix a) q then 1 else 0) + n_routes (List.filter (fun x => negb (rkey_eqb (fst x) k)) A) q)%nat.
Proof.
  unfold n_routes. induction A as [|[k' a'] A IH]; [intros _ H; by apply elem_of_nil in H|]. simpl. intros [Hk Hn]%NoDup_cons [[= <- <-]|Hin]%elem_of_cons.
  - rewrite (proj2 (rkey_eqb_eq k k)) by done. simpl. assert (E : List.filter (fun x => negb (rkey_eqb (fst x) k)) A = A).
    { clear IH Hn. induction A as [|[k2 a2] A IH]; [done|]. simpl in *. apply not_elem_of_cons in Hk as [H1 H2]. rewrite (proj2 (rkey_eqb_neq k2 k)) by done. simpl. by rewrite IH. }
    rewrite E. destruct (name_eqb _ q); simpl; lia.
  - assert (Hne : k' <> k). { intros ->. apply Hk. apply elem_of_list_fmap. by exists (k, a). }
    rewrite (proj2 (rkey_eqb_neq k' k)) by done. simpl. destruct (name_eqb (a_prefix a') q); simpl; rewrite (IH Hn Hin); lia.
Qed.
Lemma refs_filter rrs A m k : Forall2 (ref_ok rrs) A m ->
  Forall2 (ref_ok rrs) (List.filter (fun x => negb (rkey_eqb (fst x) k)) A) (List.filter (fun x => negb (rkey_eqb (fst x) k)) m).
Proof. induction 1 as [|x y A m [E H] _ IH]; simpl; [constructor|]. rewrite <-E. destruct (negb _); [|done]. constructor; [|done]. done. Qed.
Lemma refs_find rrs A m k : Forall2 (ref_ok rrs) A m ->
  match List.find (fun x => rkey_eqb (fst x) k) m with
  | None => k ∉ map fst A
  | Some (_, id) => exists a r, (k, a) ∈ A /\ r ∈ rrs /\ rr_id r = id /\ rr_prefix r = a_prefix a
  end.
Proof.
  induction 1 as [|[k1 a1] [k2 i] A m [E (r & Hr & E1 & E2)] _ IH]; simpl in *; [set_solver|]. subst k2. destruct (rkey_eqb k1 k) eqn:Ek.
  - apply rkey_eqb_eq in Ek as ->. exists a1, r. split; [left|]. done.
  - apply rkey_eqb_neq in Ek. destruct (List.find _ m) as [[k3 i3]|].
    + destruct IH as (a & r3 & Ha & Hr3). exists a, r3. split; [by right|done].
    + set_solver.
Qed.
Lemma name_eqb_neq' a b : a <> b -> name_eqb a b = false.
Proof. intros H. apply not_true_iff_false. by rewrite name_eqb_eq. Qed.
Lemma ops_one id o p q : ops [Sent id o p] q = if name_eqb p q then [o] else [].
Proof. unfold ops. simpl. by destruct (name_eqb p q). Qed.
Local Notation yes := (fun _ : name => true).

Lemma node_adv av n os r : rr_n r = N.of_nat (S n) -> (forall o, o ∈ os -> o = Advertise) -> node_ok av (S n) (os ++ [Advertise]) r.
Proof.
  intros H Ho. split; [done| |done| |].
  - intros o [H1| ->%elem_of_list_singleton]%elem_of_app; [by apply Ho|done].
  - intros _ d _. by destruct os.
  - intros _ _. left. by destruct os.
Qed.
Lemma node_wd av r : rr_n r = 0%N -> av = true -> node_ok av 0 [Withdraw] r.
Proof.
  intros H Hav. split; [done| | |done|done].
  - by intros o ->%elem_of_list_singleton.
  - intros _. split; [done|]. split; [done|]. by left.
Qed.
Ltac av_back v Hav := match goal with |- rinv ?A' ?D (RV ?a ?b _ ?c ?d ?e) => replace (RV a b _ c d e) with (RV a b (v_avail v) c d e) by (by rewrite Hav) end.
Lemma add_step pol A k c v :
  rinv A yes v -> calm_event pol A v (VAdd k c) -> exists v', v_step pol (VAdd k c) v = Some v' /\ rinv (routes_step pol A (VAdd k c)) yes v'.
Proof.
  intros I Hcalm. simpl. unfold after_add. simpl in Hcalm. destruct (p_handle pol k c) as [a|] eqn:Ea; [|by exists v]. specialize (Hcalm a eq_refl) as [Hfresh Hq].
  assert (HkA : NoDup (map fst (A ++ [(k, a)]))).
  { rewrite map_app. apply NoDup_app. split; [apply I|]. split; [|apply NoDup_singleton]. intros x Hx ->%elem_of_list_singleton. done. }
  assert (Hother : forall q, q <> a_prefix a -> n_routes (A ++ [(k, a)]) q = n_routes A q) by (intros q Hne; rewrite n_routes_snoc, name_eqb_neq' by done; done).
  assert (Hn : n_routes (A ++ [(k, a)]) (a_prefix a) = S (n_routes A (a_prefix a))) by (rewrite n_routes_snoc, name_eqb_refl; done).
  assert (Hmap : List.find (fun x => rkey_eqb (fst x) k) (v_map v) = None).
  { pose proof (refs_find _ _ _ k (rv_map _ _ _ I)) as H. destruct (List.find _ (v_map v)) as [[k' i]|]; [|done]. destruct H as (a' & r & Ha & _). destruct Hfresh.
    apply elem_of_list_fmap. by exists (k, a'). }
  destruct (List.find (fun r => name_eqb (rr_prefix r) (a_prefix a)) (v_rrs v)) as [r|] eqn:Ef.
  - apply find_pfx_iff in Ef as [Hr Ep]; [|apply I]. pose proof (rv_node _ _ _ I r Hr) as Hok. rewrite Ep in Hok. pose proof (rv_ids _ _ _ I) as Hid.
    change (v_map (on_id (rr_id r) (with_signer (a_signer a)) v)) with (v_map v). rewrite Hmap. set (v3 := set_map _ _).
    assert (F3 : find_id (rr_id r) v3 = Some (with_signer (a_signer a) r)) by (apply (find_on_id (with_signer (a_signer a)) r v); done). rewrite F3. cbn [obind rr_n with_signer].
    assert (Hrefs : Forall2 (ref_ok (v_rrs v)) (A ++ [(k, a)]) (v_map v ++ [(k, rr_id r)])).
    { apply Forall2_app; [apply I|]. constructor; [|constructor]. split; [done|]. exists r. done. }
    set (r1 := with_n (rr_n r + 1) (with_signer (a_signer a) r)).
    assert (E4 : on_id (rr_id r) (with_n (rr_n r + 1)) v3 = RV (map (fun x => if has_id (rr_id r) x then r1 else x) (v_rrs v)) (v_map v ++ [(k, rr_id r)]) (v_avail v) (v_out v) (v_seen v) (v_next v)).
    { unfold v3, set_map. unfold on_id at 1. cbn [v_rrs v_map v_avail v_out v_seen v_next set_rrs]. unfold set_rrs. cbn [v_rrs v_map v_avail v_out v_seen v_next]. f_equal.
      pose proof (on_id_on_id (rr_id r) (with_n (rr_n r + 1)) (with_signer (a_signer a)) v ltac:(done)) as E. apply (f_equal v_rrs) in E. etransitivity; [exact E|]. by rewrite (on_id_eq _ r v Hid Hr). }
    rewrite E4. destruct (N.ltb_spec 0 (rr_n r)) as [Hpos|Hzero].
    + eexists. split; [reflexivity|]. apply (upd_inv A yes v); try done; rewrite ?Ep, ?Hn; try done.
      * intros q Hne. by rewrite Hother.
      * destruct Hok as [O1 O2 O3 O4 O5]. assert (n_routes A (a_prefix a) <> 0%nat) as Hnz by lia. split; simpl; try done; try lia.
        -- intros o Ho. rewrite (O2 o Ho). by rewrite (proj2 (Nat.eqb_neq _ _) Hnz).
        -- intros _. by apply O4.
        -- intros _. by apply O5.
      * intros c0 Hc. by left.
      * intros Hav. rewrite (rv_seen _ _ _ I _ Hav). simpl. destruct (Nat.eqb_spec (n_routes A (a_prefix a)) 0) as [E|E]; [|done]. destruct Hok as [O1 _ _ _ _]. lia.
    + assert (Hz : n_routes A (a_prefix a) = 0%nat) by (destruct Hok; lia). destruct Hq as [Hq|Hq%quiet_ops]; [done|].
      destruct (no_zero _ _ _ _ Hok Hz) as [Hav _]. rewrite all_true in Hav.
      set (r2 := with_delay RETRY_DELAY_MIN r1).
      assert (E5 : on_id (rr_id r) (with_delay RETRY_DELAY_MIN) (RV (map (fun x => if has_id (rr_id r) x then r1 else x) (v_rrs v)) (v_map v ++ [(k, rr_id r)]) (v_avail v) (v_out v) (v_seen v) (v_next v))
        = RV (map (fun x => if has_id (rr_id r) x then r2 else x) (v_rrs v)) (v_map v ++ [(k, rr_id r)]) (v_avail v) (v_out v) (v_seen v) (v_next v)).
      { unfold on_id, set_rrs. simpl. f_equal. rewrite map_map. apply map_ext. intros x. destruct (has_id (rr_id r) x) eqn:Ex; [|by rewrite Ex]. unfold has_id. simpl. by rewrite N.eqb_refl. }
      rewrite E5. unfold advertise. assert (F5 : find_id (rr_id r) (RV (map (fun x => if has_id (rr_id r) x then r2 else x) (v_rrs v)) (v_map v ++ [(k, rr_id r)]) (v_avail v) (v_out v) (v_seen v) (v_next v)) = Some r2).
      { apply find_id_iff; simpl; [by rewrite upd_ids|]. split; [|done]. apply elem_of_list_fmap. exists r. unfold has_id. by rewrite N.eqb_refl. }
      rewrite F5. cbn [obind]. destruct (N.eqb_spec (rr_n r2) 0) as [E|_]; [simpl in E; lia|]. cbn [v_avail]. rewrite Hav. eexists. split; [reflexivity|].
      unfold command_sent. cbn [v_rrs v_map v_avail v_out v_seen v_next]. av_back v Hav. apply (upd_inv A yes v); try done; rewrite ?Ep, ?Hn; try done.
      * intros q Hne. rewrite Hother by done. split; [done|]. split; [done|]. rewrite ops_app, ops_one, last_seen_app. simpl. rewrite Ep, !name_eqb_neq' by done. by rewrite app_nil_r.
      * rewrite ops_app, Hq, ops_one. simpl. rewrite Ep, name_eqb_refl. apply (node_adv _ _ []); [unfold r1; simpl; lia|set_solver].
      * intros c0 [Hc| ->%elem_of_list_singleton]%elem_of_app; [by left|]. by right.
      * intros _. rewrite last_seen_app. simpl. by rewrite Ep, name_eqb_refl.
  - pose proof (find_pfx_none _ _ Ef) as Hnew. assert (Hz : n_routes A (a_prefix a) = 0%nat).
    { destruct (Nat.eq_dec (n_routes A (a_prefix a)) 0) as [|Hne]; [done|]. destruct (rinv_node_of _ _ _ _ I Hne) as (r & Hr & E). by destruct (Hnew r Hr). }
    assert (Hops : ops (v_out v) (a_prefix a) = []).
    { destruct (ops (v_out v) (a_prefix a)) eqn:E; [done|]. assert (K : ops (v_out v) (a_prefix a) <> []) by (by rewrite E). apply ops_in in K as (c0 & Hc & Ec).
      destruct (rv_out _ _ _ I c0 Hc) as (r & Hr & _ & E2). destruct (Hnew r Hr). congruence. }
    set (r0 := RR (v_next v) (a_prefix a) (a_cost a) 0 0 0 None). set (v1 := RV (v_rrs v ++ [r0]) _ _ _ _ _).
    change (v_map (on_id (v_next v) (with_signer (a_signer a)) v1)) with (v_map v). rewrite Hmap. set (v3 := set_map _ _).
    assert (Hid1 : NoDup (map rr_id (v_rrs v1))).
    { simpl. rewrite map_app. apply NoDup_app. split; [apply I|]. split; [|apply NoDup_singleton]. intros i (x & -> & Hx)%elem_of_list_fmap E%elem_of_list_singleton.
      apply (rv_lt _ _ _ I) in Hx. simpl in E. lia. }
    assert (Hr0 : r0 ∈ v_rrs v1) by (simpl; apply elem_of_app; right; left).
    assert (F3 : find_id (v_next v) v3 = Some (with_signer (a_signer a) r0)) by (by apply (find_on_id (with_signer (a_signer a)) r0 v1)).
    rewrite F3. cbn [obind rr_n with_signer r0]. change (0 <? 0)%N with false. cbv iota.
    set (r2 := RR (v_next v) (a_prefix a) (a_cost a) (a_signer a) 1 RETRY_DELAY_MIN None).
    assert (Hold : forall (f : rr -> rr), map (fun x => if has_id (v_next v) x then f x else x) (v_rrs v) = v_rrs v).
    { intros f. rewrite <-(map_id (v_rrs v)) at 2. apply map_ext_in. intros x Hx%elem_of_list_In. unfold has_id. destruct (N.eqb_spec (rr_id x) (v_next v)) as [E|]; [|done]. apply (rv_lt _ _ _ I) in Hx. lia. }
    match goal with |- exists v', advertise _ ?w = _ /\ _ => assert (E5 : w = RV (v_rrs v ++ [r2]) (v_map v ++ [(k, v_next v)]) (v_avail v) (v_out v) (v_seen v) (v_next v + 1)) end.
    { unfold v3, v1, set_map, on_id, set_rrs. simpl. rewrite !map_app, !Hold. simpl. unfold has_id. simpl. repeat (rewrite N.eqb_refl; simpl); done. }
    rewrite E5. unfold advertise. assert (F5 : find_id (v_next v) (RV (v_rrs v ++ [r2]) (v_map v ++ [(k, v_next v)]) (v_avail v) (v_out v) (v_seen v) (v_next v + 1)) = Some r2).
    { apply find_id_iff; simpl; [revert Hid1; simpl; by rewrite !map_app|]. split; [|done]. apply elem_of_app. right. left. }
    rewrite F5. cbn [obind]. cbn [rr_n r2 N.eqb v_avail].
    assert (Hrefs : Forall2 (ref_ok (v_rrs v ++ [r2])) (A ++ [(k, a)]) (v_map v ++ [(k, v_next v)])).
    { apply Forall2_app.
      - eapply Forall2_impl; [apply (rv_map _ _ _ I)|]. intros x y [E (z & Hz' & E1)]. split; [done|]. exists z. split; [|done]. apply elem_of_app. by left.
      - constructor; [|constructor]. split; [done|]. exists r2. split; [|done]. apply elem_of_app. right. left. }
    destruct (v_avail v) eqn:Hav; (eexists; split; [reflexivity|]).
    + unfold command_sent. cbn [v_rrs v_map v_avail v_out v_seen v_next]. av_back v Hav. apply (new_inv A yes v); simpl; rewrite ?Hn; try done.
      * intros q Hne. rewrite Hother by done. rewrite ops_app, ops_one, last_seen_app. simpl. rewrite !name_eqb_neq' by done. by rewrite app_nil_r.
      * rewrite ops_app, Hops, ops_one, name_eqb_refl. apply (node_adv _ _ []); [by rewrite Hz|set_solver].
      * intros c0 [Hc| ->%elem_of_list_singleton]%elem_of_app; [by left|]. by right.
      * intros _. rewrite last_seen_app. simpl. by rewrite name_eqb_refl.
    + av_back v Hav. apply (new_inv A yes v); simpl; rewrite ?Hn; try done.
      * intros q Hne. by rewrite Hother by done.
      * rewrite Hops, Hz, Hav. split; simpl; try done. set_solver.
      * intros c0 Hc. by left.
      * rewrite Hav. done.
Qed.
Lemma drop_nodup A k : NoDup (map fst A) -> NoDup (map fst (List.filter (fun x : rkey * action => negb (rkey_eqb (fst x) k)) A)).
Proof. apply nodup_map_filter. Qed.
Lemma drop_none (A : list (rkey * action)) k : k ∉ map fst A -> List.filter (fun x => negb (rkey_eqb (fst x) k)) A = A.
Proof.
  induction A as [|[k' a'] A IH]; [done|]. simpl. intros [H1 H2]%not_elem_of_cons. rewrite (proj2 (rkey_eqb_neq k' k)) by done. simpl. by rewrite IH.
Qed.
Lemma remove_step pol A k v :
  rinv A yes v -> calm_event pol A v (VRemove k) -> exists v', v_step pol (VRemove k) v = Some v' /\ rinv (routes_step pol A (VRemove k)) yes v'.
Proof.
  intros I Hcalm. simpl. unfold before_remove. pose proof (refs_find _ _ _ k (rv_map _ _ _ I)) as Hf. destruct (List.find _ (v_map v)) as [[k0 id]|] eqn:Em.
  2:{ exists v. split; [done|]. by rewrite drop_none. }
  destruct Hf as (a & r & Ha & Hr & <- & Ep). simpl in Hcalm. specialize (Hcalm a Ha). pose proof (rv_ids _ _ _ I) as Hid.
  set (A' := List.filter _ A). set (m' := List.filter _ (v_map v)).
  assert (HkA : NoDup (map fst A')) by (apply drop_nodup, I).
  assert (Hother : forall q, q <> a_prefix a -> n_routes A' q = n_routes A q) by (intros q Hne; rewrite (n_routes_drop A k a q), name_eqb_neq' by (done || apply I || done); done).
  assert (Hn : n_routes A (a_prefix a) = S (n_routes A' (a_prefix a))) by (rewrite (n_routes_drop A k a _), name_eqb_refl by (done || apply I); done).
  assert (Hrefs : Forall2 (ref_ok (v_rrs v)) A' m') by (apply refs_filter, I).
  pose proof (rv_node _ _ _ I r Hr) as Hok. rewrite Ep in Hok.
  assert (F1 : find_id (rr_id r) (set_map m' v) = Some r) by (by apply find_id_iff). rewrite F1. cbn [obind].
  rewrite (on_id_eq _ r (set_map m' v)) by done. set (r1 := with_n (rr_n r - 1) r).
  pose proof (no_n _ _ _ _ Hok) as Hrn. destruct (N.ltb_spec 0 (rr_n r - 1)) as [Hpos|Hzero].
  - eexists. split; [reflexivity|]. apply (upd_inv A yes v); try done; rewrite ?Ep; try done.
    + intros q Hne. by rewrite Hother.
    + destruct Hok as [O1 O2 O3 O4 O5]. assert (n_routes A' (a_prefix a) <> 0%nat) as Hnz by lia. split; simpl; try done; try lia.
      * intros o Ho. rewrite (O2 o Ho), Hn. by rewrite (proj2 (Nat.eqb_neq _ _) Hnz).
      * intros _. apply O4. lia.
      * intros _. apply O5. lia.
    + intros c0 Hc. by left.
    + intros Hav. rewrite (rv_seen _ _ _ I _ Hav). rewrite Hn. rewrite (proj2 (Nat.eqb_neq (n_routes A' _) 0)) by lia. done.
  - assert (Hz : n_routes A' (a_prefix a) = 0%nat) by lia. assert (Hq : ops (v_out v) (a_prefix a) = []). { apply quiet_ops. destruct Hcalm as [Hc|Hc]; [lia|done]. }
    set (r2 := with_delay RETRY_DELAY_MIN r1).
    match goal with |- exists v', withdraw _ ?w = _ /\ _ => assert (E5 : w = RV (map (fun x => if has_id (rr_id r) x then r2 else x) (v_rrs v)) m' (v_avail v) (v_out v) (v_seen v) (v_next v)) end.
    { unfold on_id, set_rrs, set_map. simpl. f_equal. rewrite map_map. apply map_ext. intros x. destruct (has_id (rr_id r) x) eqn:Ex; [|by rewrite Ex]. unfold has_id. simpl. by rewrite N.eqb_refl. }
    rewrite E5. unfold withdraw. set (v5 := RV _ _ _ _ _ _). assert (F5 : find_id (rr_id r) v5 = Some r2).
    { apply find_id_iff; simpl; [by rewrite upd_ids|]. split; [|done]. apply elem_of_list_fmap. exists r. unfold has_id. by rewrite N.eqb_refl. }
    rewrite F5. cbn [obind]. destruct (N.eqb_spec (rr_n r2) 0) as [_|E]; [|simpl in E; lia]. cbn [negb]. change (v_avail v5) with (v_avail v). destruct (v_avail v) eqn:Hav.
    + eexists. split; [reflexivity|]. unfold command_sent. cbn [v_rrs v_map v_avail v_out v_seen v_next v5]. av_back v Hav. apply (upd_inv A yes v); try done; rewrite ?Ep, ?Hz; try done.
      * intros q Hne. rewrite Hother by done. split; [done|]. split; [done|]. rewrite ops_app, ops_one, last_seen_app. simpl. rewrite Ep, !name_eqb_neq' by done. by rewrite app_nil_r.
      * rewrite ops_app, Hq, ops_one. simpl. rewrite Ep, name_eqb_refl. apply node_wd; [simpl; lia|by rewrite Hav].
      * intros c0 [Hc| ->%elem_of_list_singleton]%elem_of_app; [by left|]. by right.
      * intros _. rewrite last_seen_app. simpl. by rewrite Ep, name_eqb_refl.
    + eexists. split; [reflexivity|]. unfold erase_id, set_rrs. cbn [v_rrs v_map v_avail v_out v_seen v_next v5].
      assert (E6 : List.filter (fun x => negb (has_id (rr_id r) x)) (map (fun x => if has_id (rr_id r) x then r2 else x) (v_rrs v)) = List.filter (fun x => negb (has_id (rr_id r) x)) (v_rrs v)).
      { clear. induction (v_rrs v) as [|x l IH]; [done|]. simpl. destruct (has_id (rr_id r) x) eqn:Ex; simpl.
        - unfold has_id at 1. simpl. rewrite N.eqb_refl. simpl. done.
        - rewrite Ex. simpl. by rewrite IH. }
      rewrite E6. av_back v Hav. apply (erase_inv A yes v); try done; rewrite ?Ep; try done.
      * intros q Hne. by rewrite Hother.
      * by rewrite Hav.
Qed.
Lemma take_drop_in {A} (l : list A) i x y : l !! i = Some x -> y ∈ take i l ++ drop (S i) l -> y ∈ l.
Proof. intros H Hy. rewrite <-(take_drop_middle l i x H). set_solver. Qed.
Lemma ops_rest out i c p : out !! i = Some c -> ops out p ≡ₚ (if name_eqb (s_prefix c) p then [s_op c] else []) ++ ops (take i out ++ drop (S i) out) p.
Proof.
  intros H. rewrite <-(take_drop_middle out i c H) at 1. rewrite !ops_app. change (c :: drop (S i) out) with ([c] ++ drop (S i) out). rewrite ops_app.
  assert (ops [c] p = if name_eqb (s_prefix c) p then [s_op c] else []) as -> by (unfold ops; simpl; by destruct (name_eqb _ p)). rewrite !app_assoc. apply Permutation_app_tail. apply Permutation_app_comm.
Qed.
Lemma respond_step pol A i ok v :
  rinv A yes v -> exists v', v_step pol (VRespond i ok) v = Some v' /\ rinv A yes v'.
Proof.
  intros I. simpl. destruct (v_out v !! i) as [c|] eqn:Ei; [|by exists v]. set (out' := take i (v_out v) ++ drop (S i) (v_out v)).
  assert (Hc : c ∈ v_out v) by (by eapply elem_of_list_lookup_2). destruct (rv_out _ _ _ I c Hc) as (r & Hr & Eid & Ep). pose proof (rv_ids _ _ _ I) as Hid.
  pose proof (rv_node _ _ _ I r Hr) as Hok. pose proof (ops_rest _ i c (rr_prefix r) Ei) as Hops. fold out' in Hops. rewrite Ep, name_eqb_refl in Hops. rewrite <-Ep in Hops.
  assert (Hoth : forall q, q <> rr_prefix r -> ops out' q = ops (v_out v) q).
  { intros q Hne. unfold out'. rewrite <-(take_drop_middle (v_out v) i c Ei) at 3. change (c :: drop (S i) (v_out v)) with ([c] ++ drop (S i) (v_out v)). rewrite !ops_app.
    assert (ops [c] q = []) as ->; [|done]. unfold ops. simpl. by rewrite name_eqb_neq' by congruence. }
  assert (Hsub : forall o, o ∈ ops out' (rr_prefix r) -> o ∈ ops (v_out v) (rr_prefix r)) by (intros o Ho; rewrite Hops; by right).
  assert (Hop : s_op c = if (n_routes A (rr_prefix r) =? 0)%nat then Withdraw else Advertise) by (apply (no_ops _ _ _ _ Hok); rewrite Hops; left).
  unfold after_response. rewrite <-Eid. assert (F : find_id (rr_id r) (set_vout out' v) = Some r) by (by apply find_id_iff). rewrite F. cbn [obind].
  assert (Hupd : forall r', rr_id r' = rr_id r -> rr_prefix r' = rr_prefix r -> rr_n r' = rr_n r -> (exists d, rr_timer r' = Some (s_op c, d)) ->
     rinv A yes (RV (map (fun x => if has_id (rr_id r) x then r' else x) (v_rrs v)) (v_map v) (v_avail v) out' (v_seen v) (v_next v))).
  { intros r' E1 E2 E3 [d E4]. apply (upd_inv A yes v); try done; try apply I.
    - intros q Hne. by rewrite Hoth.
    - destruct Hok as [O1 O2 O3 O4 O5]. pose proof (Permutation_length Hops) as Hlen. simpl in Hlen. split.
      + by rewrite E3.
      + intros o Ho. by apply O2, Hsub.
      + intros Hz. destruct (O3 Hz) as (K1 & K2 & _). split; [done|]. split; [lia|]. right. exists d. by rewrite E4, Hop, Hz.
      + intros Hnz d'. rewrite E4, Hop. rewrite (proj2 (Nat.eqb_neq _ _) Hnz). done.
      + intros Hnz _. right. exists d. rewrite E4, Hop. by rewrite (proj2 (Nat.eqb_neq _ _) Hnz).
    - intros c0 Hc0. left. by eapply take_drop_in. }
  destruct (s_op c), ok; (eexists; split; [reflexivity|]).
  - rewrite on_id_eq by done. apply Hupd; try done. by eexists.
  - rewrite on_id_eq by done. apply Hupd; try done. by eexists.
  - assert (Hz : n_routes A (rr_prefix r) = 0%nat) by (destruct (Nat.eqb_spec (n_routes A (rr_prefix r)) 0); done).
    unfold erase_id, set_rrs, set_vout. simpl. apply (erase_inv A yes v); try done; try apply I.
    + intros q Hne. by rewrite Hoth.
    + destruct (no_zero _ _ _ _ Hok Hz) as (_ & Hlen & _). pose proof (Permutation_length Hops) as Hl. simpl in Hl. destruct (ops out' (rr_prefix r)); [done|]. simpl in Hl. lia.
    + intros c0 Hc0. by eapply take_drop_in.
    + intros Hav. rewrite (rv_seen _ _ _ I _ Hav), Hz. done.
  - rewrite on_id_eq by done. apply Hupd; try done. by eexists.
Qed.
Lemma timer_step pol A p v : rinv A yes v -> quiet v p -> exists v', v_step pol (VTimer p) v = Some v' /\ rinv A yes v'.
Proof.
  intros I Hq%quiet_ops. simpl. destruct (List.find _ (v_rrs v)) as [r|] eqn:Ef; [|by exists v]. apply find_pfx_iff in Ef as [Hr <-]; [|apply I]. pose proof (rv_ids _ _ _ I) as Hid.
  destruct (rr_timer r) as [[o d]|] eqn:Et; [|by exists v]. pose proof (rv_node _ _ _ I r Hr) as Hok. rewrite Hq in Hok. rewrite on_id_eq by done. set (r1 := with_timer None r).
  set (v1 := set_rrs _ v). assert (F1 : find_id (rr_id r) v1 = Some r1).
  { apply find_id_iff; simpl; [by rewrite upd_ids|]. split; [|done]. apply elem_of_list_fmap. exists r. unfold has_id. by rewrite N.eqb_refl. }
  pose proof (no_n _ _ _ _ Hok) as Hn. destruct (Nat.eq_dec (n_routes A (rr_prefix r)) 0) as [Hz|Hnz].
  - destruct (no_zero _ _ _ _ Hok Hz) as (Hav & _ & [?|[d' Hd]]); [done|]. rewrite Et in Hd. injection Hd as -> _. rewrite all_true in Hav.
    unfold withdraw. rewrite F1. cbn [obind]. assert (E0 : (rr_n r1 =? 0)%N = true) by (simpl; rewrite Hn, Hz; done). rewrite E0. cbn [negb]. change (v_avail v1) with (v_avail v). rewrite Hav.
    eexists. split; [reflexivity|]. unfold command_sent. cbn [v_rrs v_map v_avail v_out v_seen v_next v1 set_rrs]. av_back v Hav. apply (upd_inv A yes v); try done; try apply I.
    + intros q Hne. rewrite ops_app, ops_one, last_seen_app. simpl. rewrite !name_eqb_neq' by done. by rewrite app_nil_r.
    + rewrite ops_app, Hq, ops_one, Hz. simpl. rewrite name_eqb_refl. apply node_wd; [simpl; lia|by rewrite Hav].
    + intros c0 [Hc| ->%elem_of_list_singleton]%elem_of_app; [by left|]. by right.
    + intros _. rewrite last_seen_app, Hz. simpl. by rewrite name_eqb_refl.
  - destruct o; [|by destruct (no_some _ _ _ _ Hok Hnz d Et)]. unfold advertise. rewrite F1. cbn [obind]. assert (E0 : (rr_n r1 =? 0)%N = false) by (apply N.eqb_neq; simpl; lia). rewrite E0.
    change (v_avail v1) with (v_avail v). destruct (v_avail v) eqn:Hav; (eexists; split; [reflexivity|]).
    + unfold command_sent. cbn [v_rrs v_map v_avail v_out v_seen v_next v1 set_rrs]. av_back v Hav. apply (upd_inv A yes v); try done; try apply I.
      * intros q Hne. rewrite ops_app, ops_one, last_seen_app. simpl. rewrite !name_eqb_neq' by done. by rewrite app_nil_r.
      * rewrite ops_app, Hq, ops_one. simpl. rewrite name_eqb_refl. destruct (n_routes A (rr_prefix r)); [done|]. apply (node_adv _ _ []); [done|set_solver].
      * intros c0 [Hc| ->%elem_of_list_singleton]%elem_of_app; [by left|]. by right.
      * intros _. rewrite last_seen_app. simpl. rewrite name_eqb_refl. by rewrite (proj2 (Nat.eqb_neq _ _) Hnz).
    + unfold v1, set_rrs. av_back v Hav. apply (upd_inv A yes v); try done; try apply I.
      * rewrite Hq, Hav. simpl. split; [done|set_solver|done|done|done].
      * intros c0 Hc. by left.
Qed.
Definition idp (r : rr) : N * name := (rr_id r, rr_prefix r).
Lemma rinv_D A D v : rinv A D v -> (forall p, D p = true) -> rinv A yes v.
Proof.
  intros I H. destruct I as [I1 I2 I3 I4 I5 I6 I7 I8]. split; try done.
  - intros r Hr. specialize (I6 r Hr). by rewrite H in I6.
  - intros p Hp. apply I8. by rewrite H.
Qed.
Lemma adv_all A ids v D :
  rinv A D v -> v_avail v = true -> (forall r, r ∈ v_rrs v -> n_routes A (rr_prefix r) <> 0%nat) -> (forall id, id ∈ ids -> id ∈ map rr_id (v_rrs v)) ->
  exists v' D', each_of (fun id v => advertise id (on_id id (with_delay RETRY_DELAY_MIN) v)) ids v = Some v' /\ rinv A D' v' /\ map idp (v_rrs v') = map idp (v_rrs v) /\
    (forall p, D p = true -> D' p = true) /\ (forall id p, (id, p) ∈ map idp (v_rrs v) -> id ∈ ids -> D' p = true).
Proof.
  revert v D. induction ids as [|id ids IH]; intros v D I Hav Hnz Hids.
  { exists v, D. split; [done|]. split; [done|]. split; [done|]. split; [done|]. intros id p _ []%elem_of_nil. }
  pose proof (rv_ids _ _ _ I) as Hid. destruct (proj1 (elem_of_list_fmap _ _ _) (Hids id ltac:(left))) as (r & Eid & Hr). subst id. simpl. rewrite (on_id_eq _ r v) by done.
  set (r1 := with_delay RETRY_DELAY_MIN r). set (v1 := set_rrs _ v). assert (F1 : find_id (rr_id r) v1 = Some r1).
  { apply find_id_iff; simpl; [by rewrite upd_ids|]. split; [|done]. apply elem_of_list_fmap. exists r. unfold has_id. by rewrite N.eqb_refl. }
  pose proof (rv_node _ _ _ I r Hr) as Hok. pose proof (Hnz r Hr) as Hn0. pose proof (no_n _ _ _ _ Hok) as Hn.
  assert (E0 : (rr_n r1 =? 0)%N = false) by (apply N.eqb_neq; simpl; lia).
  assert (Ea : advertise (rr_id r) v1 = Some (command_sent r1 Advertise v1)) by (unfold advertise; rewrite F1; cbn [obind]; rewrite E0; change (v_avail v1) with (v_avail v); by rewrite Hav).
  rewrite Ea. set (v2 := command_sent r1 Advertise v1). set (D2 := fun q => D q || name_eqb q (rr_prefix r)).
  assert (I2 : rinv A D2 v2).
  { unfold v2, command_sent. cbn [v_rrs v_map v_avail v_out v_seen v_next v1 set_rrs]. apply (upd_inv A D v); try done; try apply I.
    - intros q Hne. unfold D2. rewrite ops_app, ops_one, last_seen_app. simpl. rewrite !name_eqb_neq' by done. by rewrite app_nil_r, orb_false_r.
    - rewrite ops_app, ops_one. simpl. rewrite name_eqb_refl. destruct (n_routes A (rr_prefix r)) as [|m] eqn:En; [done|]. apply node_adv; [done|]. intros o Ho. by apply (no_ops _ _ _ _ Hok).
    - intros c0 [Hc| ->%elem_of_list_singleton]%elem_of_app; [by left|]. by right.
    - intros _. rewrite last_seen_app. simpl. rewrite name_eqb_refl. by rewrite (proj2 (Nat.eqb_neq _ _) Hn0). }
  assert (Eidp : map idp (v_rrs v2) = map idp (v_rrs v)).
  { simpl. rewrite map_map. apply map_ext_in. intros x Hx%elem_of_list_In. destruct (has_id (rr_id r) x) eqn:Ex; [|done]. apply N.eqb_eq in Ex. by rewrite (nodup_map_inj rr_id (v_rrs v) x r). }
  destruct (IH v2 D2 I2 Hav) as (v' & D' & E & I' & E2 & Hm & Hd).
  - simpl. intros x. rewrite upd_in by (done || apply I). intros [[= <-]|[Hx _]]; [done|by apply Hnz].
  - intros i Hi. simpl. rewrite upd_ids by done. apply Hids. by right.
  - exists v', D'. split; [done|]. split; [done|]. split; [congruence|]. split.
    + intros p Hp. apply Hm. unfold D2. by rewrite Hp.
    + intros i p Hip [->|Hi]%elem_of_cons; [|by apply (Hd i); rewrite ?Eidp]. apply Hm. unfold D2. apply orb_true_iff. right. apply name_eqb_eq.
      apply elem_of_list_fmap in Hip as (x & [= E3 ->] & Hx). by rewrite (nodup_map_inj rr_id (v_rrs v) x r).
Qed.
Lemma avail_step pol A b v :
  rinv A yes v -> calm_event pol A v (VAvail b) -> exists v', v_step pol (VAvail b) v = Some v' /\ rinv A yes v'.
Proof.
  intros I Hcalm. simpl. unfold set_availability. destruct (Bool.eqb b (v_avail v)) eqn:Eb; [by exists v|]. destruct b.
  - destruct (v_avail v) eqn:Hav; [done|]. clear Hcalm Eb. set (v1 := set_avail true [SeenUp] v).
    assert (Hnz : forall r, r ∈ v_rrs v -> n_routes A (rr_prefix r) <> 0%nat). { intros r Hr Hz. destruct (no_zero _ _ _ _ (rv_node _ _ _ I r Hr) Hz) as [H _]. by rewrite Hav in H. }
    set (D0 := fun p => (n_routes A p =? 0)%nat). assert (I1 : rinv A D0 v1).
    { destruct I as [I1 I2 I3 I4 I5 I6 I7 I8]. split; try done.
      - intros r Hr. specialize (I6 r Hr). rewrite Hav in I6. simpl in I6 |- *. unfold D0. by rewrite (proj2 (Nat.eqb_neq _ _) (Hnz r Hr)).
      - simpl. intros p Hp. rewrite last_seen_app. unfold D0 in Hp. by rewrite Hp. }
    destruct (adv_all A (map rr_id (v_rrs v1)) v1 D0 I1 eq_refl Hnz ltac:(done)) as (v' & D' & E & I' & E2 & Hm & Hd). exists v'. split; [exact E|]. apply (rinv_D A D'); [done|].
    intros p. destruct (Nat.eq_dec (n_routes A p) 0) as [Hz|Hz]; [apply Hm; unfold D0; by rewrite Hz|]. destruct (rinv_node_of _ _ _ _ I Hz) as (r & Hr & <-).
    apply (Hd (rr_id r)); [|apply elem_of_list_fmap; by exists r]. apply elem_of_list_fmap. by exists r.
  - destruct (v_avail v) eqn:Hav; [|done]. destruct Hcalm as [?|Hw]; [done|]. eexists. split; [reflexivity|].
    set (l' := List.filter _ (v_rrs v)). assert (Hsub : forall r, r ∈ l' <-> r ∈ v_rrs v /\ n_routes A (rr_prefix r) <> 0%nat).
    { intros r. unfold l'. rewrite in_lfilter, N.ltb_lt. split; (intros [Hr Hx]; split; [done|]); pose proof (no_n _ _ _ _ (rv_node _ _ _ I r Hr)); lia. }
    destruct I as [I1 I2 I3 I4 I5 I6 I7 I8]. split; simpl; try done.
    + rewrite map_map. simpl. by apply nodup_map_filter.
    + rewrite map_map. simpl. by apply nodup_map_filter.
    + intros r (x & -> & [Hx _]%Hsub)%elem_of_list_fmap. simpl. by apply I3.
    + eapply Forall2_impl_in; [exact I4|]. intros x y Hx [E (r & Hr & E1 & E2)]. split; [done|]. exists (with_timer None r). split; [|done]. apply elem_of_list_fmap. exists r. split; [done|].
      apply Hsub. split; [done|]. rewrite E2. apply n_routes_in. by exists x.
    + intros r (x & -> & [Hx Hnz]%Hsub)%elem_of_list_fmap. simpl. specialize (I6 x Hx). destruct I6 as [O1 O2 O3 O4 O5]. split; simpl; try done.
    + intros c Hc. destruct (I7 c Hc) as (r & Hr & E1 & E2). exists (with_timer None r). split; [|done]. apply elem_of_list_fmap. exists r. split; [done|]. apply Hsub. split; [done|]. intros Hz.
      apply (Hw (s_prefix c)). exists c. split; [done|]. split; [|done]. rewrite (no_ops _ _ _ _ (I6 r Hr) (s_op c)), Hz; [done|]. apply ops_elem. by exists c.
Qed.
Lemma calm_step pol A e v : rinv A yes v -> calm_event pol A v e -> exists v', v_step pol e v = Some v' /\ rinv (routes_step pol A e) yes v'.
Proof.
  intros I Hc. destruct e as [k c|k|b|i ok|p].
  - by apply add_step.
  - by apply remove_step.
  - by apply avail_step.
  - by apply respond_step.
  - by apply timer_step.
Qed.
Lemma rinv_empty : rinv [] yes rv_empty.
Proof. split; simpl; try apply NoDup_nil_2; try done; intros x Hx; by apply elem_of_nil in Hx. Qed.
Lemma calm_ok pol l : calm_run pol l -> exists v, v_run pol l = Some v /\ rinv (routes_of pol l) yes v.
Proof.
  induction l as [|e l IH] using rev_ind; intros Hc.
  { exists rv_empty. split; [done|]. apply rinv_empty. }
  destruct IH as (v & Ev & I).
  { intros l1 e' l2 v E. apply (Hc l1 e' (l2 ++ [e])). by rewrite E, <-app_assoc. }
  destruct (calm_step pol _ e v I (Hc l e [] v eq_refl Ev)) as (v' & E & I'). exists v'. split.
  - unfold v_run in *. rewrite each_of_app, Ev. simpl. by rewrite E.
  - unfold routes_of. by rewrite fold_left_app.
Qed.
