(** What WebSocket channels are to do. *)
From stdpp Require Import gmap.
From Verif Require Import Lib Fm_Model Lp_Model Tp_Model Tp_Spec Ws_Model.

(** 127.0.0.0/8, ::1, and ::ffff:127.0.0.0/104 *)
Definition loopback (a : ip) : Prop :=
  match a with
  | V4 n => (127 * 2 ^ 24 <= n < 128 * 2 ^ 24)%N
  | V6 n => n = 1%N \/ (65535 * 2 ^ 32 + 127 * 2 ^ 24 <= n < 65535 * 2 ^ 32 + 128 * 2 ^ 24)%N
  end.
Definition addr_ok (a : ip) : Prop := match a with V4 n => (n < 2 ^ 32)%N | V6 n => (n < 2 ^ 128)%N end.

(** the life of a face *)
Definition whole_life (l : list tstate) : Prop := l = [TClosing; TClosed] \/ l = [TFailed; TClosed].
(** what the environment does: connections have fresh handles and endpoints, timers fire when they are due *)
Definition ws_env (now : Z) (s : ws) (e : ws_event) : Prop :=
  match e with
  | WOpen h ends => ws_conns s !! h = None /\ is_Some ends
  | WPing h _ => exists x d, ws_conns s !! h = Some x /\ w_ping x = Some d /\ (d <= now)%Z
  | WPongTimeout h => exists x d, ws_conns s !! h = Some x /\ w_pong x = Some d /\ (d <= now)%Z
  | _ => True
  end.
(** ... and not later *)
Definition punctual (now : Z) (s : ws) : Prop :=
  forall h x d, ws_conns s !! h = Some x -> w_ping x = Some d \/ w_pong x = Some d -> (now <= d)%Z.
(** the time, when each connection was opened or last answered with a pong, the channel *)
Inductive ws_hist (late : bool) (s0 : ws) (t0 : Z) : Z -> gmap N Z -> ws -> Prop :=
| wh_nil : ws_hist late s0 t0 t0 ∅ s0
| wh_snoc t heard s t' e s' :
    ws_hist late s0 t0 t heard s -> (t <= t')%Z -> (late = false -> punctual t' s) -> ws_env t' s e -> ws_step t' s e = Some s' ->
    ws_hist late s0 t0 t' (match e with WOpen h _ | WPong h => <[h := t']> heard | _ => heard end) s'.
