(** Proofs about WebSocket channels. *)
From stdpp Require Import gmap.
From Verif Require Import Lib Fm_Model Lp_Model Tp_Model Tp_Spec Tp_Proof Ws_Model Ws_Spec.
Open Scope list_scope.

Definition w_up (x : wsf) : Prop := w_state x = TUp /\ w_listed x = true /\ w_open x = true /\ is_Some (w_ping x) /\ w_changes x = [].
Definition w_gone (x : wsf) : Prop := w_state x = TClosed /\ w_listed x = false /\ w_open x = false /\ w_ping x = None /\ whole_life (w_changes x).
Definition w_ok (s : ws) : Prop := forall h x, ws_conns s !! h = Some x -> w_up x \/ w_gone x.

Lemma fail_up x : w_state x = TUp -> ws_fail x = Some (set_wstate TClosed false (set_wconn false None (w_pong x) (set_wstate TFailed (w_listed x) x))).
Proof. intros E. unfold ws_fail, ws_set_state. rewrite E. cbn. unfold ws_do_close, ws_set_state. cbn. done. Qed.
Lemma close_up x : w_state x = TUp -> ws_close x = Some (set_wstate TClosed false (set_wconn false None (w_pong x) (set_wstate TClosing (w_listed x) x))).
Proof. intros E. unfold ws_close, ws_set_state. rewrite E. cbn. unfold ws_do_close, ws_set_state. cbn. done. Qed.
Lemma close_gone x : w_state x = TClosed -> ws_close x = Some x.
Proof. intros E. unfold ws_close. by rewrite E. Qed.
Lemma error_up x : w_state x = TUp -> ws_error x = ws_fail x.
Proof. intros E. unfold ws_error. by rewrite E. Qed.

Lemma put_ok h x s : w_ok s -> w_up x \/ w_gone x -> w_ok (put h x s).
Proof. intros H Hx j y. cbn. destruct (decide (j = h)) as [->|]; [rewrite lookup_insert; by intros [= <-]|rewrite lookup_insert_ne by done; apply H]. Qed.
Lemma face_ok h f s : w_ok s -> (forall x, ws_conns s !! h = Some x -> exists y, f x = Some y /\ (w_up y \/ w_gone y)) -> exists s', via_face h f s = Some s' /\ w_ok s'.
Proof. intros H Hf. unfold via_face. destruct (ws_conns s !! h) as [x|] eqn:E; [|by exists s]. destruct (Hf x eq_refl) as (y & -> & Hy). eexists. split; [done|]. by apply put_ok. Qed.
Lemma table_ok h f s : w_ok s -> (forall x, w_up x -> exists y, f x = Some y /\ (w_up y \/ w_gone y)) -> exists s', via_table h f s = Some s' /\ w_ok s'.
Proof.
  intros H Hf. unfold via_table. destruct (ws_conns s !! h) as [x|] eqn:E; [|by exists s]. destruct (H h x E) as [Hx|Hx].
  - destruct Hx as (U1 & U2 & U3 & U4 & U5). rewrite U2. destruct (Hf x) as (y & -> & Hy); [done|]. eexists. split; [done|]. by apply put_ok.
  - destruct Hx as (_ & -> & _). by exists s.
Qed.
Lemma put_lookup h x s : ws_conns (put h x s) !! h = Some x.
Proof. cbn. by rewrite lookup_insert. Qed.

Lemma step_ok now s e : w_ok s -> ws_env now s e -> exists s', ws_step now s e = Some s' /\ w_ok s'.
Proof.
  intros H He. destruct e as [h ends|h m|h|h|h err|h b err|h|h]; cbn [ws_step].
  - destruct He as [_ [[l r] ->]]. eexists. split; [done|]. intros j y. cbn. destruct (decide (j = h)) as [->|]; [|rewrite lookup_insert_ne by done; apply H].
    rewrite lookup_insert. intros [= <-]. left. repeat split; try done; by eexists.
  - apply table_ok; [done|]. intros x Hx. eexists. split; [done|]. left. unfold ws_message. by destruct (from_buffer m) as [[]|].
  - destruct (face_ok h (fun x => Some (set_wconn (w_open x) (w_ping x) None x)) s H) as (s1 & -> & H1); [intros x Ex; eexists; split; [done|]; destruct (H h x Ex); [by left|by right]|].
    apply table_ok; [done|]. intros x Hx. eexists. split; [done|]. by left.
  - destruct (face_ok h (fun x => Some (set_wconn (w_open x) (w_ping x) None x)) s H) as (s1 & -> & H1); [intros x Ex; eexists; split; [done|]; destruct (H h x Ex); [by left|by right]|].
    apply table_ok; [done|]. intros x (U1 & U2 & U3 & U4 & U5). rewrite fail_up by done. eexists. split; [done|]. right. repeat split; try done. cbn. rewrite U5. by right.
  - destruct He as (x & d & Ex & Ed & _). apply face_ok; [done|]. intros y Ey. assert (y = x) as -> by congruence. destruct (H h x Ex) as [(U1 & U2 & U3 & U4 & U5)|(_ & _ & _ & G & _)]; [|congruence].
    unfold ws_ping. cbn [w_open set_wconn]. rewrite U3. destruct err; cbn [orb negb].
    + rewrite error_up, fail_up by done. eexists. split; [done|]. right. repeat split; try done. cbn. rewrite U5. by right.
    + eexists. split; [done|]. left. repeat split; try done; by eexists.
  - apply face_ok; [done|]. intros x Ex. unfold ws_send. destruct (H h x Ex) as [(U1 & U2 & U3 & U4 & U5)|G].
    + rewrite U1, U3. destruct err; cbn [orb negb].
      * rewrite error_up, fail_up by done. eexists. split; [done|]. right. repeat split; try done. cbn. rewrite U5. by right.
      * eexists. split; [done|]. by left.
    + rewrite (proj1 G). exists x. split; [done|]. by right.
  - destruct (ws_conns s !! h) as [x|] eqn:Ex.
    + unfold via_face. rewrite Ex. unfold via_table. rewrite put_lookup. cbn [w_listed set_wconn]. destruct (H h x Ex) as [(U1 & U2 & U3 & U4 & U5)|(G1 & G2 & G3 & G4 & G5)].
      * rewrite U2, close_up by done. eexists. split; [done|]. unfold put. cbn. rewrite insert_insert. apply (put_ok h _ s); [done|]. right. repeat split; try done. cbn. rewrite U5. by left.
      * rewrite G2. eexists. split; [done|]. apply put_ok; [done|]. right. done.
    + unfold via_face, via_table. rewrite Ex, Ex. by exists s.
  - apply face_ok; [done|]. intros x Ex. destruct (H h x Ex) as [(U1 & U2 & U3 & U4 & U5)|G].
    + rewrite close_up by done. eexists. split; [done|]. right. repeat split; try done. cbn. rewrite U5. by left.
    + rewrite close_gone by apply G. exists x. split; [done|]. by right.
Qed.
Lemma hist_ok late i d t0 t heard s : ws_hist late (ws_channel_with i d) t0 t heard s -> w_ok s.
Proof. intros H. induction H as [|t heard s t' e s' H IH Hle Hp He E]; [by intros h x|]. destruct (step_ok t' s e IH He) as (s1 & E1 & H1). assert (s1 = s') as <- by congruence. done. Qed.

Definition target (e : ws_event) : N := match e with WOpen h _ | WMessage h _ | WPong h | WPongTimeout h | WPing h _ | WSend h _ _ | WPeerClose h | WClose h => h end.
Lemma face_others h f s s' : via_face h f s = Some s' -> ws_interval s' = ws_interval s /\ ws_timeout s' = ws_timeout s /\ ws_told s' = ws_told s /\ (forall j, j <> h -> ws_conns s' !! j = ws_conns s !! j) /\
  (is_Some (ws_conns s' !! h) <-> is_Some (ws_conns s !! h)).
Proof.
  unfold via_face. destruct (ws_conns s !! h) as [x|] eqn:E; [|intros [= <-]; by rewrite E]. destruct (f x) as [y|]; [|done]. intros [= <-]. cbn. do 3 (split; [done|]). split.
  - intros j Hj. by rewrite lookup_insert_ne.
  - rewrite lookup_insert. split; by eexists.
Qed.
Lemma table_others h f s s' : via_table h f s = Some s' -> ws_interval s' = ws_interval s /\ ws_timeout s' = ws_timeout s /\ ws_told s' = ws_told s /\ (forall j, j <> h -> ws_conns s' !! j = ws_conns s !! j) /\
  (is_Some (ws_conns s' !! h) <-> is_Some (ws_conns s !! h)).
Proof.
  unfold via_table. destruct (ws_conns s !! h) as [x|] eqn:E; [|intros [= <-]; by rewrite E]. destruct (w_listed x); [|intros [= <-]; by rewrite E]. destruct (f x) as [y|]; [|done]. intros [= <-]. cbn. do 3 (split; [done|]). split.
  - intros j Hj. by rewrite lookup_insert_ne.
  - rewrite lookup_insert. split; by eexists.
Qed.
Lemma two_others h f g s s' : match via_face h f s with Some s1 => via_table h g s1 | None => None end = Some s' ->
  ws_interval s' = ws_interval s /\ ws_timeout s' = ws_timeout s /\ ws_told s' = ws_told s /\ (forall j, j <> h -> ws_conns s' !! j = ws_conns s !! j) /\ (is_Some (ws_conns s' !! h) <-> is_Some (ws_conns s !! h)).
Proof.
  destruct (via_face h f s) as [s1|] eqn:E1; [|done]. intros E2. destruct (face_others _ _ _ _ E1) as (A1 & A2 & A3 & A4 & A5). destruct (table_others _ _ _ _ E2) as (B1 & B2 & B3 & B4 & B5).
  repeat (split; [congruence|]). split; [|tauto]. intros j Hj. rewrite B4, A4; done.
Qed.
Lemma step_others now s e s' : ws_step now s e = Some s' -> ws_interval s' = ws_interval s /\ ws_timeout s' = ws_timeout s /\ (forall j, j <> target e -> ws_conns s' !! j = ws_conns s !! j) /\
  match e with WOpen h _ => ws_told s' = ws_told s ++ [h] /\ is_Some (ws_conns s' !! h) | _ => ws_told s' = ws_told s /\ (is_Some (ws_conns s' !! target e) <-> is_Some (ws_conns s !! target e)) end.
Proof.
  intros E. destruct e as [h ends|h m|h|h|h err|h b err|h|h]; cbn [ws_step target] in *.
  - destruct ends as [[l r]|]; [|done]. injection E as <-. cbn. do 2 (split; [done|]). split; [intros j Hj; by rewrite lookup_insert_ne|]. split; [done|]. rewrite lookup_insert. by eexists.
  - destruct (table_others _ _ _ _ E) as (A1 & A2 & A3 & A4 & A5). done.
  - destruct (two_others _ _ _ _ _ E) as (A1 & A2 & A3 & A4 & A5). done.
  - destruct (two_others _ _ _ _ _ E) as (A1 & A2 & A3 & A4 & A5). done.
  - destruct (face_others _ _ _ _ E) as (A1 & A2 & A3 & A4 & A5). done.
  - destruct (face_others _ _ _ _ E) as (A1 & A2 & A3 & A4 & A5). done.
  - destruct (two_others _ _ _ _ _ E) as (A1 & A2 & A3 & A4 & A5). done.
  - destruct (face_others _ _ _ _ E) as (A1 & A2 & A3 & A4 & A5). done.
Qed.
Lemma hist_params late i d t0 t heard s : ws_hist late (ws_channel_with i d) t0 t heard s -> ws_interval s = i /\ ws_timeout s = d.
Proof. intros H. induction H as [|t heard s t' e s' H IH Hle Hp He E]; [done|]. destruct (step_others _ _ _ _ E) as (A1 & A2 & _). by rewrite A1, A2. Qed.

(** what one event does to the timers of its connection *)
Definition timers (now i d : Z) (e : ws_event) (x : wsf) : option Z * option Z :=
  match e with
  | WPong _ => (w_ping x, None)
  | WPing _ _ => (Some (now + i)%Z, if (0 <? d)%Z then Some (now + d)%Z else None)
  | _ => (w_ping x, w_pong x)
  end.
Lemma step_timers now s e s' x y : w_ok s -> ws_env now s e -> ws_step now s e = Some s' -> ws_conns s !! target e = Some x -> ws_conns s' !! target e = Some y -> w_state y = TUp ->
  w_state x = TUp /\ (w_ping y, w_pong y) = timers now (ws_interval s) (ws_timeout s) e x.
Proof.
  intros H He E Ex Ey Hy. pose proof (H _ _ Ex) as Hx.
  destruct e as [h ends|h m|h|h|h err|h b err|h|h]; cbn [ws_step target timers] in *.
  - destruct He as [He _]. congruence.
  - unfold via_table in E. rewrite Ex in E. destruct Hx as [(U1 & U2 & _)|(G1 & G2 & _)].
    + rewrite U2 in E. injection E as <-. cbn in Ey. rewrite lookup_insert in Ey. injection Ey as <-. unfold ws_message. by destruct (from_buffer m) as [[]|].
    + rewrite G2 in E. injection E as <-. congruence.
  - unfold via_face in E. rewrite Ex in E. unfold via_table in E. rewrite put_lookup in E. cbn [w_listed set_wconn] in E. destruct Hx as [(U1 & U2 & _)|(G1 & G2 & _)].
    + rewrite U2 in E. injection E as <-. cbn in Ey. rewrite lookup_insert in Ey. injection Ey as <-. done.
    + rewrite G2 in E. injection E as <-. cbn in Ey. rewrite lookup_insert in Ey. injection Ey as <-. cbn in Hy. congruence.
  - unfold via_face in E. rewrite Ex in E. unfold via_table in E. rewrite put_lookup in E. cbn [w_listed set_wconn] in E. destruct Hx as [(U1 & U2 & _)|(G1 & G2 & _)].
    + rewrite U2, fail_up in E by done. injection E as <-. cbn in Ey. rewrite lookup_insert in Ey. injection Ey as <-. done.
    + rewrite G2 in E. injection E as <-. cbn in Ey. rewrite lookup_insert in Ey. injection Ey as <-. cbn in Hy. congruence.
  - destruct He as (x' & dd & Ex' & Ed & _). assert (x' = x) as -> by congruence. destruct Hx as [(U1 & U2 & U3 & _)|(_ & _ & _ & G & _)]; [|congruence].
    unfold via_face in E. rewrite Ex in E. unfold ws_ping in E. cbn [w_open set_wconn] in E. rewrite U3 in E. destruct err; cbn [orb negb] in E.
    + rewrite error_up, fail_up in E by done. injection E as <-. cbn in Ey. rewrite lookup_insert in Ey. injection Ey as <-. done.
    + injection E as <-. cbn in Ey. rewrite lookup_insert in Ey. injection Ey as <-. done.
  - unfold via_face in E. rewrite Ex in E. unfold ws_send in E. destruct Hx as [(U1 & U2 & U3 & _)|(G1 & _)].
    + rewrite U1, U3 in E. destruct err; cbn [orb negb] in E.
      * rewrite error_up, fail_up in E by done. injection E as <-. cbn in Ey. rewrite lookup_insert in Ey. injection Ey as <-. done.
      * injection E as <-. cbn in Ey. rewrite lookup_insert in Ey. injection Ey as <-. done.
    + rewrite G1 in E. injection E as <-. cbn in Ey. rewrite lookup_insert in Ey. injection Ey as <-. congruence.
  - unfold via_face in E. rewrite Ex in E. unfold via_table in E. rewrite put_lookup in E. cbn [w_listed set_wconn] in E. destruct Hx as [(U1 & U2 & _)|(G1 & G2 & _)].
    + rewrite U2, close_up in E by done. injection E as <-. cbn in Ey. rewrite lookup_insert in Ey. injection Ey as <-. done.
    + rewrite G2 in E. injection E as <-. cbn in Ey. rewrite lookup_insert in Ey. injection Ey as <-. cbn in Hy. congruence.
  - unfold via_face in E. rewrite Ex in E. destruct Hx as [(U1 & _)|(G1 & _)].
    + rewrite close_up in E by done. injection E as <-. cbn in Ey. rewrite lookup_insert in Ey. injection Ey as <-. done.
    + rewrite close_gone in E by done. injection E as <-. cbn in Ey. rewrite lookup_insert in Ey. injection Ey as <-. congruence.
Qed.

(** the times of a face that is UP *)
Record w_times (i d t : Z) (heard : gmap N Z) (h : N) (x : wsf) : Prop := WTimes {
  wt_heard : exists s, heard !! h = Some s /\ (s <= t)%Z;
  wt_pong : forall e s, w_pong x = Some e -> heard !! h = Some s -> (s + d <= e)%Z;
}.
Lemma heard_step e t' (heard : gmap N Z) h : h <> target e -> match e with WOpen h _ | WPong h => <[h := t']> heard | _ => heard end !! h = heard !! h.
Proof. intros Hne. destruct e; try done; by rewrite lookup_insert_ne. Qed.
Lemma hist_times late i d t0 t heard s h x : ws_hist late (ws_channel_with i d) t0 t heard s -> ws_conns s !! h = Some x -> w_state x = TUp -> w_times i d t heard h x.
Proof.
  intros H. revert h x. induction H as [|t heard s t' e s' H IH Hle Hp He E]; [done|]. intros h y Ey Hy.
  destruct (step_others _ _ _ _ E) as (_ & _ & Ho & Hs). pose proof (hist_ok _ _ _ _ _ _ _ H) as Hok. destruct (hist_params _ _ _ _ _ _ _ H) as [P1 P2].
  destruct (decide (h = target e)) as [->|Hne].
  - destruct (ws_conns s !! target e) as [x|] eqn:Ex.
    + destruct (step_timers _ _ _ _ _ _ Hok He E Ex Ey Hy) as [Hx Ht]. rewrite P1, P2 in Ht. destruct (IH _ _ Ex Hx) as [(s0 & Es & Hs0) Hpo].
      destruct e as [h ends|h m|h|h|h err|h b err|h|h]; cbn [target timers] in *; injection Ht as T1 T2;
        try (constructor; [exists s0; split; [done|lia]|]; rewrite T2; exact Hpo).
      * destruct He as [He _]. congruence.
      * constructor; [exists t'; rewrite lookup_insert; split; [done|lia]|]. rewrite T2. done.
      * constructor; [exists s0; split; [done|lia]|]. rewrite T2. intros e s1. destruct (0 <? d)%Z; [|done]. intros [= <-] Es1. assert (s1 = s0) by congruence. lia.
    + destruct e as [h ends|h m|h|h|h err|h b err|h|h]; cbn [target] in *; try (destruct Hs as [_ Hs]; assert (is_Some (@None wsf)) as [? ?] by (apply Hs; by eexists); done).
      destruct ends as [[l r]|]; [|done]. cbn [ws_step] in E. injection E as <-. cbn in Ey. rewrite lookup_insert in Ey. injection Ey as <-.
      constructor; [exists t'; rewrite lookup_insert; split; [done|lia]|done].
  - rewrite (Ho h Hne) in Ey. destruct (IH _ _ Ey Hy) as [(s0 & Es & Hs0) Hpo]. constructor.
    + exists s0. rewrite heard_step by done. split; [done|lia].
    + rewrite heard_step by done. done.
Qed.
(** ... if timers fire in time and the pong timer is the shorter one *)
Record w_live (i d t : Z) (heard : gmap N Z) (h : N) (x : wsf) : Prop := WLive {
  wl : exists s u, heard !! h = Some s /\ w_ping x = Some u /\ (t <= u)%Z /\
       ((w_pong x = None /\ (u <= s + i)%Z) \/ (w_pong x = Some (u - i + d)%Z /\ (t <= u - i + d)%Z /\ (u - i <= s + i)%Z /\ (u - i <= t)%Z));
}.
Lemma hist_live i d t0 t heard s h x : (0 < d < i)%Z -> ws_hist false (ws_channel_with i d) t0 t heard s -> ws_conns s !! h = Some x -> w_state x = TUp -> w_live i d t heard h x.
Proof.
  intros Hdi H. revert h x. induction H as [|t heard s t' e s' H IH Hle Hp He E]; [done|]. intros h y Ey Hy. specialize (Hp eq_refl).
  destruct (step_others _ _ _ _ E) as (_ & _ & Ho & Hs). pose proof (hist_ok _ _ _ _ _ _ _ H) as Hok. destruct (hist_params _ _ _ _ _ _ _ H) as [P1 P2].
  assert (Hold : forall x, ws_conns s !! h = Some x -> w_state x = TUp -> exists s0 u, heard !! h = Some s0 /\ w_ping x = Some u /\ (t' <= u)%Z /\
       ((w_pong x = None /\ (u <= s0 + i)%Z) \/ (w_pong x = Some (u - i + d)%Z /\ (t' <= u - i + d)%Z /\ (u - i <= s0 + i)%Z /\ (u - i <= t')%Z))).
  { intros x Ex Hx. destruct (IH _ _ Ex Hx) as [(s0 & u & L1 & L2 & L3 & L4)]. exists s0, u. do 2 (split; [done|]). split; [apply (Hp h x u Ex); by left|].
    destruct L4 as [?|(L4 & L5 & L6)]; [by left|]. right. split; [done|]. split; [|lia]. apply (Hp h x _ Ex). by right. }
  destruct (decide (h = target e)) as [->|Hne].
  - destruct (ws_conns s !! target e) as [x|] eqn:Ex.
    + destruct (step_timers _ _ _ _ _ _ Hok He E Ex Ey Hy) as [Hx Ht]. rewrite P1, P2 in Ht. destruct (Hold _ eq_refl Hx) as (s0 & u & L1 & L2 & L3 & L4).
      constructor. destruct e as [h ends|h m|h|h|h err|h b err|h|h]; cbn [target timers] in *; injection Ht as T1 T2;
        try (exists s0, u; rewrite T1, T2; done).
      * destruct He as [He _]. congruence.
      * exists t', u. rewrite lookup_insert, T1, T2. do 2 (split; [done|]). split; [done|]. left. split; [done|].
        destruct (hist_times _ _ _ _ _ _ _ _ _ H Ex Hx) as [(s1 & E1 & Hs1) _]. assert (s1 = s0) by congruence. destruct L4 as [[_ ?]|(_ & ? & _ & ?)]; lia.
      * destruct He as (x' & u' & Ex' & Eu & Hu). assert (x' = x) as -> by congruence. assert (u' = u) as -> by congruence.
        destruct L4 as [[L4 L5]|(L4 & L5 & L6)]; [|lia]. exists s0, (t' + i)%Z. rewrite T1, T2. do 2 (split; [done|]). split; [lia|]. right.
        destruct (Z.ltb_spec 0 d); [|lia]. split; [f_equal; lia|]. lia.
    + destruct e as [h ends|h m|h|h|h err|h b err|h|h]; cbn [target] in *; try (destruct Hs as [_ Hs]; assert (is_Some (@None wsf)) as [? ?] by (apply Hs; by eexists); done).
      destruct ends as [[l r]|]; [|done]. cbn [ws_step] in E. injection E as <-. cbn in Ey. rewrite lookup_insert in Ey. injection Ey as <-.
      constructor. exists t', (t' + ws_interval s)%Z. rewrite lookup_insert. rewrite P1. do 2 (split; [done|]). split; [lia|]. left. split; [done|lia].
  - rewrite (Ho h Hne) in Ey. constructor. rewrite heard_step by done. by apply Hold.
Qed.
