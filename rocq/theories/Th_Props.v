(** C84: the two threads of the daemon end together. *)
From stdpp Require Import list.
From Verif Require Import Lib Th_Model.
Open Scope list_scope.

(** States that some schedule reaches. *)
Definition reached (s : st) : Prop := exists l, th_steps l th_init = Some s.
(** The events that a schedule must not withhold: a thread that can go on does; exceptions and signals come from outside. *)
Definition forced (e : th_event) : Prop := match e with EvReady false | EvRibThrow | EvSignal | EvMainThrow _ => False | _ => True end.
Definition stuck (s : st) : Prop := forall e, forced e -> th_step e s = None.

(** how far the threads are, and the flags *)
Definition inv1 (s : st) : Prop :=
  match t_r s, t_m s with
  | RStart, MWait => t_io s = false /\ t_mstop s = false /\ t_rstop s = false
  | (RInit | RRun | RCaught | RStopMain), MWait => t_io s = true /\ t_rstop s = false /\ t_mstop s = false
  | RClear, MWait => t_io s = true /\ t_rstop s = false /\ t_mstop s = true
  | REnd, MWait => t_io s = false /\ t_rstop s = false /\ t_mstop s = true
  | (RInit | RRun | RCaught | RStopMain), MRun => t_io s = true /\ t_rstop s = false
  | RClear, MRun => t_io s = true /\ t_rstop s = false /\ t_mstop s = true
  | REnd, MRun => t_io s = false /\ t_rstop s = false /\ t_mstop s = true
  | (RInit | RRun | RCaught | RStopMain | RClear), MStopRib => t_io s = true /\ t_rstop s = false
  | REnd, MStopRib => t_io s = false /\ t_rstop s = false
  | (RInit | RRun | RCaught | RStopMain | RClear), MJoin => t_io s = false /\ t_rstop s = true
  | REnd, (MJoin | MExit) => t_io s = false
  | _, _ => False
  end.
(** the exit code and the exceptions *)
Definition inv2 (s : st) : Prop :=
  (t_ret s <> 0%N -> t_ret s ∈ t_fails s) /\ (t_r s <> RCaught -> t_fails s <> [] -> t_ret s <> 0%N) /\ (t_r s = RCaught -> 1%N ∈ t_fails s) /\ Forall (fun c => c = 1%N \/ c = 4%N) (t_fails s).
Lemma inv1_step e s s' : inv1 s -> th_step e s = Some s' -> inv1 s'.
Proof.
  destruct s as [r m io ret ms rs fs]. unfold inv1. cbn [t_r t_m t_io t_mstop t_rstop]. intros H E.
  destruct e as [|[]| | | | | | | | |[]| |], r; try discriminate E; destruct m; try discriminate E; try (exfalso; exact H); destruct io, rs, ms; try discriminate E; cbn in E; try (injection E as <-); cbn [t_r t_m t_io t_mstop t_rstop]; first [done | exfalso; clear -H; intuition congruence | clear -H; intuition congruence].
Qed.
Lemma inv2_step e s s' : inv2 s -> th_step e s = Some s' -> inv2 s'.
Proof.
  destruct s as [r m io ret ms rs fs]. unfold inv2. cbn [t_r t_ret t_fails]. intros (H1 & H2 & H3 & H4) E.
  assert (F1 : forall c, (c = 1%N \/ c = 4%N) -> Forall (fun c => c = 1%N \/ c = 4%N) (fs ++ [c])) by (intros c Hc; apply Forall_app; split; [done|by apply Forall_singleton]).
  assert (F2 : forall c, c ∈ fs ++ [c]) by (intros c; apply elem_of_app; right; by apply elem_of_list_singleton).
  assert (F3 : forall c, ret <> 0%N -> ret ∈ fs ++ [c]) by (intros c Hc; apply elem_of_app; left; by apply H1).
  assert (F4 : forall c, r = RCaught -> 1%N ∈ fs ++ [c]) by (intros c Hc; apply elem_of_app; left; by apply H3).
  destruct e as [|[]| | | | | | | | |[]| |]; destruct r; try discriminate E; destruct m, io, rs, ms; try discriminate E; cbn in E; injection E as <-; cbn [t_r t_ret t_fails];
    (split; [first [exact H1 | by intros _; apply F2 | by apply F3 | intros _; by apply H3]|]); (split; [first [exact H2 | done | intros _; by apply H2]|]); (split; [first [exact H3 | done | intros _; apply F2 | by apply F4]|]); first [exact H4 | apply F1; by left | apply F1; by right].
Qed.
Lemma inv_reached s : reached s -> inv1 s /\ inv2 s.
Proof.
  intros [l E]. assert (G : forall l s s', inv1 s -> inv2 s -> th_steps l s = Some s' -> inv1 s' /\ inv2 s').
  { clear. induction l as [|e l IH]; intros s s' I1 I2 E; cbn in E; [by simplify_eq|]. destruct (th_step e s) as [s1|] eqn:E1; [|done]. eapply IH; [by eapply inv1_step|by eapply inv2_step|done]. }
  apply (G l th_init s); [done| |done]. unfold inv2. cbn. split; [done|]. split; [done|]. split; [done|]. constructor.
Qed.
(** When the daemon has ended, the RIB thread has, too; the exit code is zero exactly if no thread failed, and otherwise that of a failure. *)
Theorem C84_exit s : reached s -> t_m s = MExit ->
  t_r s = REnd /\ (t_ret s = 0%N <-> t_fails s = []) /\ (t_fails s <> [] -> t_ret s ∈ t_fails s).
Proof.
  intros R E. destruct (inv_reached s R) as [I1 (H1 & H2 & H3 & H4)]. unfold inv1 in I1. rewrite E in I1. destruct (t_r s) eqn:Er; try done.
  split; [done|]. assert (Z : t_fails s <> [] -> t_ret s <> 0%N) by (by apply H2). split.
  - split; [intros X; destruct (t_fails s) as [|c l]; [done|]; by destruct Z|]. intros X. destruct (decide (t_ret s = 0%N)) as [|N]; [done|]. apply H1 in N. rewrite X in N. by apply elem_of_nil in N.
  - intros X. by apply H1, Z.
Qed.
Print Assumptions C84_exit.
(** The exceptions are those that the schedule says. *)
Theorem C84_fails l s : th_steps l th_init = Some s ->
  t_fails s = omap (fun e => match e with EvReady false | EvRibThrow => Some 1%N | EvMainThrow true => Some 4%N | EvMainThrow false => Some 1%N | _ => None end) l.
Proof.
  assert (G : forall l s s', th_steps l s = Some s' -> t_fails s' = t_fails s ++ omap (fun e => match e with EvReady false | EvRibThrow => Some 1%N | EvMainThrow true => Some 4%N | EvMainThrow false => Some 1%N | _ => None end) l); [|intros E; apply (G l th_init s E)].
  clear. induction l as [|e l IH]; intros s s' E; cbn in E; [simplify_eq; by rewrite app_nil_r|]. destruct (th_step e s) as [s1|] eqn:E1; [|done]. rewrite (IH _ _ E).
  assert (t_fails s1 = t_fails s ++ omap (fun e => match e with EvReady false | EvRibThrow => Some 1%N | EvMainThrow true => Some 4%N | EvMainThrow false => Some 1%N | _ => None end) [e]) as ->; [|rewrite <- app_assoc; cbn; destruct e as [|[]| | | | | | | | |[]| |]; done].
  clear -E1. destruct s as [r m io ret ms rs fs]. destruct e as [|[]| | | | | | | | |[]| |]; cbn in E1 |- *; destruct r; try discriminate E1; destruct m; try discriminate E1; destruct io; try discriminate E1; destruct rs; try discriminate E1; destruct ms; try discriminate E1; injection E1 as <-; cbn; by rewrite ?app_nil_r.
Qed.
Print Assumptions C84_fails.
(** No io_context is stopped that is gone: the RIB thread has not ended when the main thread stops its io_context, nor the daemon when the RIB thread stops that of the main thread. *)
Theorem C84_alive s : reached s ->
  (t_m s = MStopRib -> t_io s = true -> t_r s <> REnd /\ t_r s <> RStart) /\ (t_r s = RStopMain -> t_m s <> MExit).
Proof.
  intros R. destruct (inv_reached s R) as [I1 _]. unfold inv1 in I1. split.
  - intros E Io. rewrite E, Io in I1. destruct (t_r s); try done; by destruct I1.
  - intros E. rewrite E in I1. by destruct (t_m s).
Qed.
Print Assumptions C84_alive.
(** The threads come to rest in three ways only: the daemon has ended, both threads run, or the main thread waits for a RIB thread that has ended. *)
Theorem C84_rest s : reached s -> stuck s ->
  t_m s = MExit \/ (t_m s = MRun /\ t_r s = RRun /\ t_mstop s = false /\ t_rstop s = false) \/ (t_m s = MWait /\ t_r s = REnd /\ t_fails s <> []).
Proof.
  intros R S. destruct (inv_reached s R) as [I1 I2]. assert (Q : t_m s = MWait -> t_r s = REnd -> t_fails s <> []).
  { clear S. revert R. clear. intros [l E]. assert (G : forall l s s', (t_m s = MWait -> inv1 s /\ (t_r s ∈ [RCaught; RStopMain; RClear; REnd] -> t_fails s <> [])) -> th_steps l s = Some s' -> t_m s' = MWait -> t_r s' ∈ [RCaught; RStopMain; RClear; REnd] -> t_fails s' <> []).
    { clear. induction l as [|e l IH]; intros s s' H E; cbn in E; [simplify_eq; intros X Y; by apply H|]. destruct (th_step e s) as [s1|] eqn:E1; [|done]. eapply IH; [|done]. intros M.
      assert (M0 : t_m s = MWait) by (clear -E1 M; destruct s as [r m io ret ms rs fs]; destruct e as [|[]| | | | | | | | |[]| |]; cbn in E1; destruct r; try discriminate E1; destruct m; try discriminate E1; destruct io; try discriminate E1; destruct rs; try discriminate E1; destruct ms; try discriminate E1; injection E1 as <-; cbn in *; congruence).
      destruct (H M0) as [I1 I3]. split; [by eapply inv1_step|]. clear H. unfold inv1 in I1. rewrite M0 in I1. destruct s as [r m io ret ms rs fs]. cbn [t_r t_m t_io t_mstop t_rstop t_fails] in *. subst m.
      destruct e as [|[]| | | | | | | | |[]| |]; cbn in E1; destruct r; try discriminate E1; destruct io; try discriminate E1; destruct rs; try discriminate E1; injection E1 as <-; cbn in *; try (clear; set_solver); try (intros _; by destruct fs); try (intros _; apply I3; clear; set_solver); exfalso; clear -I1; intuition congruence. }
    intros X Y. apply (G l th_init s); [intros _; split; [done|clear; set_solver]|done|done|]. rewrite Y. clear. set_solver. }
  destruct s as [r m io ret ms rs fs]. unfold inv1 in I1. cbn [t_r t_m t_io t_mstop t_rstop t_fails] in *.
  destruct r, m; try (exfalso; exact I1).
  all: try (exfalso; specialize (S EvAssign I); discriminate S).
  all: try (exfalso; specialize (S (EvReady true) I); discriminate S).
  all: try (exfalso; specialize (S EvRibRetval I); discriminate S).
  all: try (exfalso; specialize (S EvRibStopMain I); discriminate S).
  all: try (exfalso; specialize (S EvRibClear I); discriminate S).
  all: try (exfalso; specialize (S EvStopRib I); discriminate S).
  all: try (exfalso; specialize (S EvJoin I); discriminate S).
  all: try (by left).
  - exfalso. destruct I1 as (-> & _). specialize (S EvWoken I). discriminate S.
  - right. left. destruct I1 as [-> ->]. destruct ms; [|done]. specialize (S EvMainReturn I). discriminate S.
  - exfalso. destruct I1 as [-> ->]. specialize (S EvRibReturn I). discriminate S.
  - right. right. split; [done|]. split; [done|]. by apply Q.
  - exfalso. destruct I1 as (-> & -> & ->). specialize (S EvMainReturn I). discriminate S.
Qed.
Print Assumptions C84_rest.
(** They do come to rest: whatever the schedule, there are at most ten steps besides signals. *)
Definition is_signal (e : th_event) : bool := match e with EvSignal => true | _ => false end.
Definition left_r (r : rpc) : nat := match r with RStart => 6 | RInit => 5 | RRun => 4 | RCaught => 3 | RStopMain => 2 | RClear => 1 | REnd => 0 end.
Definition left_m (m : mpc) : nat := match m with MWait => 4 | MRun => 3 | MStopRib => 2 | MJoin => 1 | MExit => 0 end.
Theorem C84_bounded l s : th_steps l th_init = Some s -> (length (List.filter (fun e => negb (is_signal e)) l) <= 10)%nat.
Proof.
  assert (G : forall l s s', th_steps l s = Some s' -> (length (List.filter (fun e => negb (is_signal e)) l) <= left_r (t_r s) + left_m (t_m s))%nat); [|intros E; apply (G l th_init s E)].
  clear. induction l as [|e l IH]; intros s s' E; cbn [th_steps] in E; [cbn; lia|]. destruct (th_step e s) as [s1|] eqn:E1; [|done]. specialize (IH _ _ E).
  assert ((if is_signal e then left_r (t_r s1) + left_m (t_m s1) <= left_r (t_r s) + left_m (t_m s) else S (left_r (t_r s1) + left_m (t_m s1)) <= left_r (t_r s) + left_m (t_m s))%nat).
  { clear -E1. destruct s as [r m io ret ms rs fs]. destruct e as [|[]| | | | | | | | |[]| |]; cbn in E1; destruct r; try discriminate E1; destruct m; try discriminate E1; destruct io; try discriminate E1; destruct rs; try discriminate E1; destruct ms; try discriminate E1; injection E1 as <-; cbn; lia. }
  cbn [List.filter]. destruct (is_signal e); cbn [negb length]; lia.
Qed.
Print Assumptions C84_bounded.
(** So a failure or a signal ends the daemon, whatever the schedule, unless the RIB thread fails before the main thread has noticed its start. *)
Theorem C84_ends s : reached s -> stuck s -> t_mstop s = true \/ t_fails s <> [] \/ t_r s = REnd -> t_m s <> MWait -> t_m s = MExit.
Proof.
  intros R S H M. destruct (C84_rest s R S) as [?|[(Em & Er & Es & _)|[? _]]]; [done| |done]. exfalso. destruct H as [?|[H|?]]; [congruence| |congruence].
  assert (F : t_m s = MRun -> t_r s = RRun -> t_fails s = []); [|by apply H, F]. clear -R. destruct R as [l E].
  assert (G : forall l s s', ((t_m s = MWait \/ t_m s = MRun) -> (t_r s = RStart \/ t_r s = RInit \/ t_r s = RRun) -> t_fails s = []) -> th_steps l s = Some s' -> (t_m s' = MWait \/ t_m s' = MRun) -> (t_r s' = RStart \/ t_r s' = RInit \/ t_r s' = RRun) -> t_fails s' = []).
  { clear. induction l as [|e l IH]; intros s s' H E; cbn in E; [by simplify_eq|]. destruct (th_step e s) as [s1|] eqn:E1; [|done]. eapply IH; [|done]. clear -E1 H.
    destruct s as [r m io ret ms rs fs]. cbn in H. destruct e as [|[]| | | | | | | | |[]| |]; cbn in E1; destruct r; try discriminate E1; destruct m; try discriminate E1; destruct io; try discriminate E1; destruct rs; try discriminate E1; destruct ms; try discriminate E1; injection E1 as <-; cbn; intros X Y; first [by (apply H; tauto) | exfalso; clear -X Y; intuition congruence]. }
  intros Em Er. apply (G l th_init s); [done|done|by right|tauto].
Qed.
Print Assumptions C84_ends.
(** That can happen: the RIB thread starts and fails, and ribIo is null again when the main thread looks; it waits for ever, and no signal can end it. *)
Theorem C84_hang_refuted : exists s, th_steps [EvAssign; EvReady false; EvRibRetval; EvRibStopMain; EvRibClear] th_init = Some s /\ t_ret s = 1%N /\ t_m s = MWait /\ forall e, th_step e s = None.
Proof. eexists. split; [reflexivity|]. split; [done|]. split; [done|]. intros e. by destruct e as [|[]| | | | | | | | |[]| |]. Qed.
Print Assumptions C84_hang_refuted.

(** * Examples *)
Example C84_ex : exists s, th_steps [EvAssign; EvWoken; EvReady true; EvMainThrow true; EvStopRib; EvRibThrow; EvRibRetval; EvRibStopMain; EvRibClear; EvJoin] th_init = Some s /\ t_m s = MExit /\ t_ret s = 1%N /\ t_fails s = [4; 1]%N.
Proof. eexists. split; [reflexivity|]. done. Qed.
Example C84_ex_rest : exists s, reached s /\ stuck s /\ t_m s = MRun.
Proof. eexists. split; [exists [EvAssign; EvWoken; EvReady true]; reflexivity|]. split; [|done]. intros e. by destruct e as [|[]| | | | | | | | |[]| |]. Qed.
Example C84_ex_signal : exists s, reached s /\ stuck s /\ t_mstop s = true /\ t_m s <> MWait /\ t_ret s = 0%N.
Proof. eexists. split; [exists [EvAssign; EvWoken; EvReady true; EvSignal; EvMainReturn; EvStopRib; EvRibReturn; EvRibClear; EvJoin]; reflexivity|]. split; [|done]. intros e. by destruct e as [|[]| | | | | | | | |[]| |]. Qed.
