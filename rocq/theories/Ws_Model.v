(** WebSocket channels and transports: daemon/face/websocket-channel.cpp, websocket-transport.cpp.
    websocketpp and the scheduler are the environment: the events tell which connections are opened and closed, which messages and pongs arrive, when timers fire and which operations fail.
    Of websocketpp one thing is modelled, because the detection of dead peers rests on it: ping() restarts the connection's pong timer and a pong cancels it.
    Not modelled: the handshake, closing codes, URIs, the lifetime of face objects (the face table keeps them), the binding of the listening socket (Fs_Model). *)
From stdpp Require Import gmap.
From Verif Require Import Lib Fm_Model Lp_Model Tp_Model.
Open Scope list_scope.

Inductive ip := V4 (n : N) | V6 (n : N).
(** boost::asio::ip::address::is_loopback, and websocket-transport.cpp:32-48 isLoopback *)
Definition asio_loopback (a : ip) : bool := match a with V4 n => (n / 2 ^ 24 =? 127)%N | V6 n => (n =? 1)%N end.
Definition ws_loopback (a : ip) : bool :=
  if asio_loopback a then true
  else match a with
       | V4 _ => false
       | V6 n => if (n / 2 ^ 32 =? 65535)%N then asio_loopback (V4 (n mod 2 ^ 32)) else false
       end.

(** one connection and its transport *)
Record wsf := Wsf {
  w_local_scope : bool;
  w_state : tstate;
  w_listed : bool;                 (* the channel's table has the connection *)
  w_open : bool;                   (* websocketpp: the connection is open *)
  w_ping : option Z;               (* m_pingEventId: when it is due *)
  w_pong : option Z;               (* websocketpp: when the pong timer is due *)
  w_npings : N; w_npongs : N;
  w_nout : N; w_bout : N; w_nin : N; w_bin : N;
  w_changes : list tstate;         (* oldest first *)
  w_sent : list (list N);          (* given to websocketpp without an error *)
  w_got : list (list N)            (* passed to the link service *)
}.
Definition set_wstate s l x := Wsf (w_local_scope x) s l (w_open x) (w_ping x) (w_pong x) (w_npings x) (w_npongs x) (w_nout x) (w_bout x) (w_nin x) (w_bin x) (w_changes x ++ [s]) (w_sent x) (w_got x).
Definition set_wconn o p q x := Wsf (w_local_scope x) (w_state x) (w_listed x) o p q (w_npings x) (w_npongs x) (w_nout x) (w_bout x) (w_nin x) (w_bin x) (w_changes x) (w_sent x) (w_got x).
Definition add_ping x := Wsf (w_local_scope x) (w_state x) (w_listed x) (w_open x) (w_ping x) (w_pong x) (w_npings x + 1) (w_npongs x) (w_nout x) (w_bout x) (w_nin x) (w_bin x) (w_changes x) (w_sent x) (w_got x).
Definition add_pong x := Wsf (w_local_scope x) (w_state x) (w_listed x) (w_open x) (w_ping x) (w_pong x) (w_npings x) (w_npongs x + 1) (w_nout x) (w_bout x) (w_nin x) (w_bin x) (w_changes x) (w_sent x) (w_got x).
Definition add_wout n x := Wsf (w_local_scope x) (w_state x) (w_listed x) (w_open x) (w_ping x) (w_pong x) (w_npings x) (w_npongs x) (w_nout x + 1) (w_bout x + n) (w_nin x) (w_bin x) (w_changes x) (w_sent x) (w_got x).
Definition add_wsent b x := Wsf (w_local_scope x) (w_state x) (w_listed x) (w_open x) (w_ping x) (w_pong x) (w_npings x) (w_npongs x) (w_nout x) (w_bout x) (w_nin x) (w_bin x) (w_changes x) (w_sent x ++ [b]) (w_got x).
Definition add_wgot b x := Wsf (w_local_scope x) (w_state x) (w_listed x) (w_open x) (w_ping x) (w_pong x) (w_npings x) (w_npongs x) (w_nout x) (w_bout x) (w_nin x + 1) (w_bin x + len b) (w_changes x) (w_sent x) (w_got x ++ [b]).

(** transport.cpp:169-208 setState; the channel forgets a face that is CLOSED (websocket-channel.cpp:136, channel.cpp:44-52); None: the exception *)
Definition ws_set_state (s : tstate) (x : wsf) : option wsf :=
  if bool_decide (w_state x = s) then Some x
  else if valid_change (w_state x) s then Some (set_wstate s (if bool_decide (s = TClosed) then false else w_listed x) x) else None.
(** websocket-transport.cpp:158-170 doClose *)
Definition ws_do_close (x : wsf) : option wsf := ws_set_state TClosed (set_wconn false None (w_pong x) x).
(** websocket-transport.cpp:135-156 handlePongTimeout, and the end of processErrorCode *)
Definition ws_fail (x : wsf) : option wsf := match ws_set_state TFailed x with Some x1 => ws_do_close x1 | None => None end.
Definition ws_error (x : wsf) : option wsf := match w_state x with TClosing | TFailed | TClosed => Some x | _ => ws_fail x end.
(** transport.cpp:67-78 close *)
Definition ws_close (x : wsf) : option wsf :=
  match w_state x with
  | TUp | TDown => match ws_set_state TClosing x with Some x1 => ws_do_close x1 | None => None end
  | _ => Some x
  end.
(** transport.cpp:80-100 send, websocket-transport.cpp:80-91 doSend; [err]: websocketpp refuses, as it does if the connection is not open *)
Definition ws_send (block : list N) (err : bool) (x : wsf) : option wsf :=
  match w_state x with
  | TUp | TDown =>
      let x1 := match w_state x with TUp => add_wout (len block) x | _ => x end in
      if err || negb (w_open x) then ws_error x1 else Some (add_wsent block x1)
  | _ => Some x
  end.
(** websocket-transport.cpp:93-108 receiveMessage *)
Definition ws_message (msg : list N) (x : wsf) : wsf := match from_buffer msg with Some (b, _) => add_wgot b x | None => x end.
(** websocket-transport.cpp:110-128 schedulePing, sendPing *)
Definition ws_schedule (now interval : Z) (x : wsf) : wsf := set_wconn (w_open x) (Some (now + interval)%Z) (w_pong x) x.
Definition ws_ping (now interval timeout : Z) (err : bool) (x : wsf) : option wsf :=
  if err || negb (w_open x) then ws_error x
  else Some (ws_schedule now interval (add_ping (set_wconn (w_open x) (w_ping x) (if (0 <? timeout)%Z then Some (now + timeout)%Z else None) x))).
(** websocket-transport.cpp:51-78: a new transport *)
Definition ws_new (now interval : Z) (local remote : ip) : wsf :=
  ws_schedule now interval (Wsf (ws_loopback local && ws_loopback remote) TUp true true None None 0 0 0 0 0 0 [] [] []).

Record ws := Ws { ws_interval : Z; ws_timeout : Z; ws_conns : gmap N wsf; ws_told : list N }.
Definition put (h : N) (x : wsf) (s : ws) : ws := Ws (ws_interval s) (ws_timeout s) (<[h := x]> (ws_conns s)) (ws_told s).
(** websocket-channel.cpp:76-119, 142-152: the table is searched for the connection *)
Definition via_table (h : N) (f : wsf -> option wsf) (s : ws) : option ws :=
  match ws_conns s !! h with
  | Some x => if w_listed x then match f x with Some x' => Some (put h x' s) | None => None end else Some s
  | None => Some s
  end.
(** somebody has the face *)
Definition via_face (h : N) (f : wsf -> option wsf) (s : ws) : option ws :=
  match ws_conns s !! h with
  | Some x => match f x with Some x' => Some (put h x' s) | None => None end
  | None => Some s
  end.
Inductive ws_event :=
| WOpen (h : N) (ends : option (ip * ip))   (* handleOpen; None: the socket has no remote endpoint any more *)
| WMessage (h : N) (msg : list N)
| WPong (h : N)
| WPongTimeout (h : N)
| WPing (h : N) (err : bool)                (* the scheduled ping *)
| WSend (h : N) (block : list N) (err : bool)
| WPeerClose (h : N)                        (* handleClose *)
| WClose (h : N).                           (* the face is closed *)
Definition ws_step (now : Z) (s : ws) (e : ws_event) : option ws :=
  match e with
  | WOpen h (Some (l, r)) => (* websocket-channel.cpp:121-140 *)
      let s1 := put h (ws_new now (ws_interval s) l r) s in Some (Ws (ws_interval s1) (ws_timeout s1) (ws_conns s1) (ws_told s1 ++ [h]))
  | WOpen _ None => None
  | WMessage h m => via_table h (fun x => Some (ws_message m x)) s
  | WPong h => (* websocketpp cancels the timer, then calls the handler *)
      match via_face h (fun x => Some (set_wconn (w_open x) (w_ping x) None x)) s with Some s1 => via_table h (fun x => Some (add_pong x)) s1 | None => None end
  | WPongTimeout h =>
      match via_face h (fun x => Some (set_wconn (w_open x) (w_ping x) None x)) s with Some s1 => via_table h ws_fail s1 | None => None end
  | WPing h err => via_face h (fun x => ws_ping now (ws_interval s) (ws_timeout s) err (set_wconn (w_open x) None (w_pong x) x)) s
  | WSend h b err => via_face h (ws_send b err) s
  | WPeerClose h => match via_face h (fun x => Some (set_wconn false (w_ping x) (w_pong x) x)) s with Some s1 => via_table h ws_close s1 | None => None end
  | WClose h => via_face h ws_close s
  end.
(** websocket-channel.cpp:34-66: ten seconds; websocketpp's default of five seconds for the pong *)
Definition ws_channel : ws := Ws 10000 5000 ∅ [].
(** websocket-channel.cpp:68-82 *)
Definition ws_channel_with (interval timeout : Z) : ws := Ws interval timeout ∅ [].
