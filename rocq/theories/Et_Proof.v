(** Proofs about Ethernet transports. *)
From Verif Require Import Lib Fm_Model Lp_Model Tp_Model Tp_Spec Tp_Proof Et_Model Et_Spec.

Definition active (s : tstate) : Prop := s = TUp \/ s = TDown.
Record e_inv (x : et) : Prop := EInv {
  ei_open : e_open x = true <-> active (e_state x);
  ei_live : e_open x = true -> HClosed ∉ e_ready x /\ e_waits x + length (e_ready x) <= 1;
  ei_dead : e_open x = false -> e_waits x = 0 /\ HRead None ∉ e_ready x;
  ei_end : e_state x = TClosing \/ e_state x = TFailed -> exists l, e_ready x = l ++ [HClosed] /\ HClosed ∉ l;
  ei_over : e_state x = TClosed -> e_ready x = [];
  ei_path : path TUp (e_changes x) (e_state x);
}.

(** changes that the invariant does not see *)
Lemma inv_same x y :
  e_inv x -> e_open y = e_open x -> e_state y = e_state x -> e_ready y = e_ready x -> e_waits y = e_waits x -> e_changes y = e_changes x -> e_inv y.
Proof. intros [H1 H2 H3 H4 H5 H6] E1 E2 E3 E4 E5. constructor; rewrite ?E1, ?E2, ?E3, ?E4, ?E5; done. Qed.

Lemma set_state_ok v x : (active (e_state x) /\ v <> TClosed) \/ ((e_state x = TClosing \/ e_state x = TFailed) /\ v = TClosed) ->
  et_set_state v x = Some (if bool_decide (e_state x = v) then x else set_estate v x).
Proof.
  unfold et_set_state. intros [[[E|E] Hv]|[[E|E] Hv]]; rewrite E; destruct v; try done; cbn; done.
Qed.
Lemma path_step a l s v : path a l s -> documented s v -> path a (v :: l) v.
Proof. intros. econstructor; done. Qed.

(** closing an active transport *)
Lemma close_inv v x :
  e_inv x -> active (e_state x) -> (v = TClosing \/ v = TFailed) -> HRead None ∉ e_ready x -> e_inv (et_do_close (set_estate v x)).
Proof.
  intros [H1 H2 H3 H4 H5 H6] Ha Hv Hr. pose proof (proj2 H1 Ha) as Ho. destruct (H2 Ho) as [Hc Hw].
  unfold et_do_close. cbn [e_open e_ready e_waits set_estate]. rewrite Ho.
  assert (He : exists l, e_ready x ++ replicate (e_waits x) (HRead (Some EAborted)) ++ [HClosed] = l ++ [HClosed] /\ HClosed ∉ l).
  { exists (e_ready x ++ replicate (e_waits x) (HRead (Some EAborted))). split; [by rewrite <-app_assoc|].
    rewrite elem_of_app. intros [?|Hin]; [done|]. apply elem_of_replicate in Hin as [? _]. done. }
  constructor; cbn.
  - split; [done|]. intros [E|E]; destruct Hv; congruence.
  - done.
  - intros _. split; [done|]. rewrite !elem_of_app. intros [?|[Hin|Hin]]; [done| |by apply elem_of_list_singleton in Hin].
    apply elem_of_replicate in Hin as [? _]. done.
  - done.
  - destruct Hv; congruence.
  - apply (path_step _ _ (e_state x)); [done|]. destruct Ha as [E|E], Hv as [->| ->]; rewrite E; constructor.
Qed.

Lemma close_some x : active (e_state x) -> et_close x = Some (et_do_close (set_estate TClosing x)).
Proof. intros Ha. unfold et_close. rewrite set_state_ok by (left; split; [done|discriminate]). destruct Ha as [E|E]; rewrite E; cbn; done. Qed.
Lemma close_other x : ~ active (e_state x) -> et_close x = Some x.
Proof. unfold et_close, active. destruct (e_state x); naive_solver. Qed.
Lemma error_some x : active (e_state x) -> e_pers x <> Permanent -> et_error x = Some (et_do_close (set_estate TFailed x)).
Proof.
  intros Ha Hp. unfold et_error. rewrite bool_decide_eq_false_2 by done. rewrite set_state_ok by (left; split; [done|discriminate]).
  destruct Ha as [E|E]; rewrite E; cbn; done.
Qed.
Lemma active_dec s : {active s} + {~ active s}.
Proof. destruct s; first [left; by left | left; by right | right; intros [?|?]; done]. Qed.

Lemma error_inv x y : e_inv x -> active (e_state x) -> et_error x = Some y -> (e_open y = false -> HRead None ∉ e_ready x) -> e_inv y.
Proof.
  intros Hi Ha E Hr. destruct (decide (e_pers x = Permanent)) as [Hp|Hp].
  - unfold et_error in E. rewrite bool_decide_eq_true_2 in E by done. by injection E as <-.
  - rewrite error_some in E by done. injection E as <-. apply close_inv; [done..|by right|]. by apply Hr.
Qed.
Lemma close_inv' x y : e_inv x -> et_close x = Some y -> (e_open x = true -> e_open y = false -> HRead None ∉ e_ready x) -> e_inv y.
Proof.
  intros Hi E Hr. destruct (active_dec (e_state x)) as [Ha|Ha].
  - rewrite close_some in E by done. injection E as <-. apply close_inv; [done..|by left|]. apply Hr; [|done]. by apply (ei_open _ Hi).
  - rewrite close_other in E by done. by injection E as <-.
Qed.

Lemma new_inv t x : et_new t x -> e_inv x /\ e_waits x + length (e_ready x) = 1.
Proof.
  assert (D : path TUp [TDown] TDown) by (eapply path_cons; [constructor|constructor]).
  intros [debug local remote running mtu p idle _|debug local group running mtu x0 E _].
  - unfold unicast_new. destruct running; destruct (bool_decide (p = OnDemand) && (0 <? idle)%Z); split; try done;
    constructor; cbn; try done; unfold active; try naive_solver; try (intros _; split; [apply not_elem_of_nil|lia]); constructor.
  - unfold mcast_new in E. destruct (debug && negb (is_group group)); [done|]. injection E as <-. destruct running; split; try done;
    constructor; cbn; try done; unfold active; try naive_solver; try (intros _; split; [apply not_elem_of_nil|lia]); constructor.
Qed.

(** a payload that fits *)
Lemma payload_ok payload sender x :
  (forall b r, payload = b ++ r -> is_tlv b -> (Z.of_N (len b) <= e_mtu x)%Z) ->
  et_payload payload sender x = Some (match from_buffer payload with
    | Some (b, _) => add_egot b (if is_group (e_dst x) then Some sender else None) (set_erecent true x)
    | None => x end).
Proof.
  intros Hf. unfold et_payload. destruct (from_buffer payload) as [[b r]|] eqn:E; [|done]. apply from_buffer_spec in E as [-> Hb].
  pose proof (Hf b r eq_refl Hb). destruct (e_debug x); cbn; [|done]. destruct (Z.ltb_spec (e_mtu x) (Z.of_N (len b))); [lia|done].
Qed.

Lemma list_one {A} (h : A) l : length (h :: l) <= 1 -> l = [].
Proof. destruct l; [done|cbn; lia]. Qed.

(** nothing fails, and the invariant is kept *)
Lemma step_inv now x e :
  e_inv x -> et_env now x e -> et_fits x e -> et_calm x e -> exists x', et_step x e = Some x' /\ e_inv x'.
Proof.
  intros Hi Henv Hfit Hcalm. unfold et_calm in Hcalm. destruct e as [b s|we|pkt|running|m| |t p|t|pl sd]; cbn [et_step] in *.
  - (* send *)
    unfold et_send in *. cbn in Hfit. replace (e_mtu x <? Z.of_N (len b))%Z with false in * by lia. rewrite andb_false_r in *.
    destruct (active_dec (e_state x)) as [Ha|Ha].
    + set (x2 := add_esent (frame (e_dst x) (e_src x) b) (match e_state x with TUp => add_eout (len b) x | _ => x end)).
      assert (Hi2 : e_inv x2) by (apply (inv_same x); [done|unfold x2; destruct (e_state x) eqn:E; cbn; rewrite ?E; done..]).
      assert (Ha2 : active (e_state x2)) by (unfold x2, active in *; destruct (e_state x) eqn:E; cbn; rewrite ?E; naive_solver).
      assert (Hr2 : e_ready x2 = e_ready x) by (unfold x2; destruct (e_state x); done).
      assert (Herr : exists y, et_error x2 = Some y).
      { destruct (decide (e_pers x2 = Permanent)) as [Hp|Hp]; [unfold et_error; rewrite bool_decide_eq_true_2 by done; by eexists|].
        rewrite error_some by done. by eexists. }
      destruct Herr as [y Hy].
      assert (Hg : forall z, (forall x', Some z = Some x' -> e_open x = true -> e_open x' = false -> HRead None ∉ e_ready x) -> et_error x2 = Some z -> e_inv z).
      { intros z Hz Ez. apply (error_inv x2); [done..|]. intros Ho. rewrite Hr2. apply (Hz z); [done| |done]. by apply (ei_open _ Hi). }
      assert (Hst : match e_state x with TUp | TDown => match s with None => et_error x2 | Some n => if (n <? len (frame (e_dst x) (e_src x) b))%N then et_error x2 else Some x2 end | _ => Some x end
                    = match s with None => et_error x2 | Some n => if (n <? len (frame (e_dst x) (e_src x) b))%N then et_error x2 else Some x2 end)
        by (destruct Ha as [E|E]; rewrite E; done).
      assert (Hcalm' : forall x', match s with None => et_error x2 | Some n => if (n <? len (frame (e_dst x) (e_src x) b))%N then et_error x2 else Some x2 end = Some x' -> e_open x = true -> e_open x' = false -> HRead None ∉ e_ready x)
        by (intros x' Ex'; apply Hcalm; rewrite <-Ex'; exact Hst).
      enough (exists x', match s with None => et_error x2 | Some n => if (n <? len (frame (e_dst x) (e_src x) b))%N then et_error x2 else Some x2 end = Some x' /\ e_inv x') as (x' & Ex & Hx').
      { exists x'. split; [|done]. rewrite <-Ex. exact Hst. }
      destruct s as [n|]; [destruct (n <? len (frame (e_dst x) (e_src x) b))%N|].
      * rewrite Hy in *. exists y. split; [done|]. by apply Hg.
      * by exists x2.
      * rewrite Hy in *. exists y. split; [done|]. by apply Hg.
    + exists x. split; [|done]. unfold active in Ha. destruct (e_state x); naive_solver.
  - (* wait completes *)
    destruct Henv as [Hw Hne]. destruct (e_waits x) as [|n] eqn:Ew; [done|]. eexists. split; [done|]. destruct Hi as [H1 H2 H3 H4 H5 H6].
    destruct (e_open x) eqn:Eo; [|destruct (H3 eq_refl) as [? _]; congruence]. destruct (H2 eq_refl) as [Hc Hl].
    assert (Ha : active (e_state x)) by by apply H1.
    constructor; cbn.
    + done.
    + intros _. rewrite Ew in Hl. rewrite app_length. cbn. split; [|lia]. rewrite elem_of_app. intros [?|Hin]; [done|]. by apply elem_of_list_singleton in Hin.
    + done.
    + intros [E|E]; rewrite E in Ha; destruct Ha; done.
    + intros E; rewrite E in Ha; destruct Ha; done.
    + done.
  - (* a handler runs *)
    cbn in Henv. destruct (e_ready x) as [|h l] eqn:Er; [done|]. clear Henv. set (x1 := set_esock (e_open x) (e_waits x) l x) in *.
    destruct Hi as [H1 H2 H3 H4 H5 H6]. destruct h as [we|].
    + (* handleRead *)
      assert (Hin : HRead we ∈ e_ready x) by (rewrite Er; by left).
      assert (Hi1 : e_inv x1).
      { constructor; cbn; [done| | | | |done].
        - intros Ho. destruct (H2 Ho) as [Hc Hl]. rewrite Er in Hc, Hl. cbn in Hl. split; [|lia]. intros ?. apply Hc. by right.
        - intros Ho. destruct (H3 Ho) as [Hc Hl]. rewrite Er in Hl. split; [done|]. intros ?. apply Hl. by right.
        - intros Hs. destruct (H4 Hs) as (k & Ek & Hk). rewrite Er in Ek. destruct k as [|h k]; [cbn in Ek; injection Ek as ?; done|]. injection Ek as <- ->.
          exists k. split; [done|]. intros ?. apply Hk. by right.
        - intros Hs. specialize (H5 Hs). rewrite Er in H5. done. }
      destruct we as [we|]; cbn [et_read] in *.
      * destruct (bool_decide (we = EAborted)); [by exists x1|].
        destruct (active_dec (e_state x)) as [Ha|Ha].
        -- assert (Ha1 : active (e_state x1)) by done.
           assert (Ho : e_open x = true) by by apply H1. destruct (H2 Ho) as [_ Hl]. rewrite Er in Hl. assert (l = []) as -> by (apply (list_one (HRead (Some we))); lia).
           assert (Hst : match e_state x1 with TClosing | TFailed | TClosed => Some x1 | _ => et_error x1 end = et_error x1) by (destruct Ha1 as [E|E]; rewrite E; done).
           destruct (decide (e_pers x1 = Permanent)) as [Hp|Hp].
           { exists x1. split; [|done]. etransitivity; [exact Hst|]. unfold et_error. rewrite bool_decide_eq_true_2 by done. done. }
           exists (et_do_close (set_estate TFailed x1)). split; [etransitivity; [exact Hst|]; by apply error_some|].
           apply close_inv; [done..|by right|]. cbn. apply not_elem_of_nil.
        -- exists x1. split; [|done]. change (e_state x1) with (e_state x). unfold active in Ha. destruct (e_state x); naive_solver.
      * assert (Ho : e_open x = true) by (destruct (e_open x) eqn:Eo; [done|]; by destruct (H3 eq_refl)).
        destruct (H2 Ho) as [_ Hl]. rewrite Er in Hl. assert (l = []) as -> by (apply (list_one (HRead None)); lia). cbn in Hl.
        change (e_open x1) with (e_open x) in *. rewrite Ho in *.
        assert (Hread : forall y, e_inv y -> e_open y = true -> e_ready y = [] -> e_waits y = 0 -> e_inv (et_async_read y)).
        { intros y [G1 G2 G3 G4 G5 G6] Hoy Hry Hwy. constructor; cbn; [done| | |done..]; intros Hoy'; [|congruence].
          rewrite Hry, Hwy. split; [apply not_elem_of_nil|cbn; lia]. }
        assert (Hw0 : e_waits x = 0) by lia.
        destruct pkt as [p|]; [|by exists (et_async_read x1); split; [|apply Hread]].
        destruct (check_header _ _ _ p) as [sd|]; [|by exists (et_async_read x1); split; [|apply Hread]].
        rewrite payload_ok by exact Hfit. eexists. split; [done|].
        apply Hread; [|by destruct (from_buffer (drop HDR_LEN p)) as [[]|]..].
        apply (inv_same x1); [done|by destruct (from_buffer (drop HDR_LEN p)) as [[]|]..].
    + (* the deferred setState *)
      assert (Hin : HClosed ∈ e_ready x) by (rewrite Er; by left).
      assert (Ho : e_open x = false) by (destruct (e_open x) eqn:Eo; [|done]; by destruct (H2 eq_refl)).
      assert (Hs : e_state x = TClosing \/ e_state x = TFailed).
      { destruct (e_state x) eqn:Es; [|by destruct H1 as [_ H1]; rewrite H1 in Ho by (by right)|by left|by right|by rewrite (H5 eq_refl) in Er].
        destruct H1 as [_ H1]. by rewrite H1 in Ho by (by left). }
      rewrite set_state_ok by (by right). change (e_state x1) with (e_state x). rewrite bool_decide_eq_false_2 by (destruct Hs; congruence).
      eexists. split; [done|]. destruct (H4 Hs) as (k & Ek & Hk). rewrite Er in Ek. destruct k as [|h k]; [|injection Ek as <- ?; exfalso; apply Hk; by left].
      injection Ek as ->. destruct (H3 Ho) as [Hw _]. constructor; cbn; try done.
      * split; [congruence|]. intros [?|?]; done.
      * congruence.
      * intros _. split; [done|]. apply not_elem_of_nil.
      * intros [?|?]; done.
      * apply (path_step _ _ (e_state x)); [done|]. destruct Hs as [->| ->]; constructor.
  - (* interface state *)
    assert (Hchg : forall s, active (e_state x) -> active s -> documented (e_state x) s -> e_inv (set_estate s x)).
    { intros s Ha Hs Hd. destruct Hi as [H1 H2 H3 H4 H5 H6]. constructor; cbn; [|done|done| | |by apply (path_step _ _ (e_state x))].
      - split; [done|]. intros _. by apply H1.
      - intros [E|E]; rewrite E in Hs; destruct Hs; done.
      - intros E; rewrite E in Hs; destruct Hs; done. }
    unfold et_netif. destruct running, (e_state x) eqn:Es; try (exists x; done); unfold et_set_state; rewrite Es; cbn; eexists; (split; [done|]);
      apply Hchg; first [by left | by right | constructor].
  - eexists. split; [done|]. by apply (inv_same x).
  - destruct (active_dec (e_state x)) as [Ha|Ha]; [rewrite close_some in * by done|rewrite close_other in * by done]; eexists; (split; [done|]).
    + apply (close_inv' x); [done|by apply close_some|]. intros Ho _. by apply (Hcalm _ eq_refl).
    + done.
  - eexists. split; [done|]. unfold et_persistency. destruct (bool_decide (e_pers x = p)); [done|].
    destruct (bool_decide (p = OnDemand) && (0 <? e_idle x)%Z); by apply (inv_same x).
  - unfold et_timer in *. destruct (e_recent x).
    + eexists. split; [done|]. by apply (inv_same x).
    + set (x1 := set_etimer None (e_expires x) x) in *. assert (Hi1 : e_inv x1) by by apply (inv_same x).
      destruct (active_dec (e_state x1)) as [Ha|Ha]; [rewrite close_some in * by done|rewrite close_other in * by done]; eexists; (split; [done|]).
      * apply (close_inv' x1); [done|by apply close_some|]. intros Ho _. by apply (Hcalm _ eq_refl).
      * done.
  - rewrite payload_ok by exact Hfit. eexists. split; [done|].
    apply (inv_same x); [done|by destruct (from_buffer pl) as [[]|]..].
Qed.
Lemma hist_inv x0 t0 t last n x : et_new t0 x0 -> et_hist x0 t0 t last n x -> e_inv x.
Proof.
  intros Hn H. induction H as [|t last n x t' e x' H IH Ht He Hf Hc E]; [by apply (new_inv t0)|].
  destruct (step_inv t' x e) as (y & Ey & Hy); [done..|]. congruence.
Qed.
