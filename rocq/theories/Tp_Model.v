(** Transports: TLV framing, the state machine, stream transports with TCP's reconnection, datagrams.
    Models daemon/face/transport.cpp, stream-transport.hpp, tcp-transport.cpp, datagram-transport.hpp.
    Sockets and Boost.Asio are the environment: operations that were started wait in the state, the environment
    completes them, completion handlers wait in a queue and run in the order in which they were queued (one thread).
    Not modelled: local endpoints and URIs, logging, the kernel's send queue length, the reconnection delay. *)
From Verif Require Import Lib Lp_Model.

(** * ndn-cxx encoding/tlv.hpp readVarNumber, readType; encoding/block.cpp Block::fromBuffer (trusted) *)
Definition MAX_PACKET : N := 8800.        (* ndn::MAX_NDN_PACKET_SIZE *)
(** big-endian *)
Fixpoint big_endian (acc : N) (l : list N) : N := match l with [] => acc | b :: l' => big_endian (acc * 256 + b) l' end.
Definition read_fixed (k : nat) (l : list N) : option (N * list N) :=
  if (length l <? k)%nat then None else Some (big_endian 0 (take k l), drop k l).
Definition read_var (l : list N) : option (N * list N) :=
  match l with
  | [] => None
  | b :: l' => if (b <? 253)%N then Some (b, l')
               else if (b =? 253)%N then read_fixed 2 l'
               else if (b =? 254)%N then read_fixed 4 l'
               else if (b =? 255)%N then read_fixed 8 l'
               else None                                   (* not an octet *)
  end.
Definition read_type (l : list N) : option (N * list N) :=
  match read_var l with
  | Some (t, l') => if (t =? 0)%N || (4294967295 <? t)%N then None else Some (t, l')
  | None => None
  end.
(** the element that the buffer begins with, and the rest *)
Definition from_buffer (l : list N) : option (list N * list N) :=
  match read_type l with
  | None => None
  | Some (_, l1) =>
      match read_var l1 with
      | None => None
      | Some (n, l2) =>
          if (len l2 <? n)%N then None
          else let k := (length l - length l2 + N.to_nat n)%nat in Some (take k l, drop k l)
      end
  end.
(** stream-transport.hpp:239-247: the loop in handleReceive; an element has at least two octets *)
Fixpoint parse (fuel : nat) (l : list N) : list (list N) * list N :=
  match fuel with
  | O => ([], l)
  | S fuel' => match from_buffer l with
               | None => ([], l)
               | Some (e, l') => let '(es, r) := parse fuel' l' in (e :: es, r)
               end
  end.

(** * Datagrams *)
(** datagram-transport.hpp:172-196 receiveDatagram, with no error: what is passed on *)
Definition receive_datagram (d : list N) : option (list N) :=
  match from_buffer d with
  | None => None
  | Some (e, _) => if (len e =? len d)%N then Some e else None
  end.

(** * Transport states *)
Inductive tstate := TUp | TDown | TClosing | TFailed | TClosed.
Global Instance tstate_dec : EqDecision tstate. Proof. solve_decision. Defined.
(** transport.cpp:177-196: the switch in setState *)
Definition valid_change (a b : tstate) : bool :=
  match a with
  | TUp => match b with TDown | TClosing | TFailed => true | _ => false end
  | TDown => match b with TUp | TClosing | TFailed => true | _ => false end
  | TClosing | TFailed => match b with TClosed => true | _ => false end
  | TClosed => false
  end.

(** error codes that are told apart *)
Inductive err := EEof | EAborted | EShut | EOther.
Global Instance err_dec : EqDecision err. Proof. solve_decision. Defined.
(** handlers that are ready to run *)
Inductive handler :=
| HSend (r : option err) (n : N)              (* handleSend *)
| HRecv (r : option err) (d : list N)         (* handleReceive *)
| HClose                                      (* deferredClose *)
| HReconnect                                  (* reconnect *)
| HConn (r : option err).                     (* handleReconnect *)
Global Instance handler_dec : EqDecision handler. Proof. solve_decision. Defined.

Record xp := Xp {
  x_tcp : bool;                    (* a TcpTransport *)
  x_perm : bool;                   (* its persistency is permanent *)
  x_state : tstate;                (* m_state *)
  x_open : bool;                   (* m_socket.is_open() *)
  x_shut : bool;                   (* the socket was shut down *)
  x_sendq : list (list N);         (* m_sendQueue *)
  x_qbytes : N;                    (* m_sendQueueBytes *)
  x_buf : list N;                  (* the used part of m_receiveBuffer *)
  x_w : list (list N * N);         (* writes that were started: octets left, octets in all *)
  x_r : nat;                       (* receives that were started *)
  x_c : nat;                       (* connects that were started *)
  x_timer : bool;                  (* m_reconnectEvent *)
  x_ready : list handler;          (* handlers ready to run *)
  (* logs *)
  x_changes : list tstate;         (* afterStateChange, newest first *)
  x_acc : list (list N);           (* packets that were put in the send queue of this connection *)
  x_net : list N;                  (* octets that this connection took *)
  x_in : list N;                   (* octets that this connection gave to handleReceive *)
  x_got : list (list N);           (* packets of this connection that were passed to the link service *)
}.
Definition set_xperm v x := Xp x.(x_tcp) v x.(x_state) x.(x_open) x.(x_shut) x.(x_sendq) x.(x_qbytes) x.(x_buf) x.(x_w) x.(x_r) x.(x_c) x.(x_timer) x.(x_ready) x.(x_changes) x.(x_acc) x.(x_net) x.(x_in) x.(x_got).
Definition set_xstate v x := Xp x.(x_tcp) x.(x_perm) v x.(x_open) x.(x_shut) x.(x_sendq) x.(x_qbytes) x.(x_buf) x.(x_w) x.(x_r) x.(x_c) x.(x_timer) x.(x_ready) (v :: x.(x_changes)) x.(x_acc) x.(x_net) x.(x_in) x.(x_got).
Definition set_sock op sh x := Xp x.(x_tcp) x.(x_perm) x.(x_state) op sh x.(x_sendq) x.(x_qbytes) x.(x_buf) x.(x_w) x.(x_r) x.(x_c) x.(x_timer) x.(x_ready) x.(x_changes) x.(x_acc) x.(x_net) x.(x_in) x.(x_got).
Definition set_sendq q n x := Xp x.(x_tcp) x.(x_perm) x.(x_state) x.(x_open) x.(x_shut) q n x.(x_buf) x.(x_w) x.(x_r) x.(x_c) x.(x_timer) x.(x_ready) x.(x_changes) x.(x_acc) x.(x_net) x.(x_in) x.(x_got).
Definition set_buf v x := Xp x.(x_tcp) x.(x_perm) x.(x_state) x.(x_open) x.(x_shut) x.(x_sendq) x.(x_qbytes) v x.(x_w) x.(x_r) x.(x_c) x.(x_timer) x.(x_ready) x.(x_changes) x.(x_acc) x.(x_net) x.(x_in) x.(x_got).
Definition set_ops w r c x := Xp x.(x_tcp) x.(x_perm) x.(x_state) x.(x_open) x.(x_shut) x.(x_sendq) x.(x_qbytes) x.(x_buf) w r c x.(x_timer) x.(x_ready) x.(x_changes) x.(x_acc) x.(x_net) x.(x_in) x.(x_got).
Definition set_timer v x := Xp x.(x_tcp) x.(x_perm) x.(x_state) x.(x_open) x.(x_shut) x.(x_sendq) x.(x_qbytes) x.(x_buf) x.(x_w) x.(x_r) x.(x_c) v x.(x_ready) x.(x_changes) x.(x_acc) x.(x_net) x.(x_in) x.(x_got).
Definition set_ready v x := Xp x.(x_tcp) x.(x_perm) x.(x_state) x.(x_open) x.(x_shut) x.(x_sendq) x.(x_qbytes) x.(x_buf) x.(x_w) x.(x_r) x.(x_c) x.(x_timer) v x.(x_changes) x.(x_acc) x.(x_net) x.(x_in) x.(x_got).
Definition add_acc p x := Xp x.(x_tcp) x.(x_perm) x.(x_state) x.(x_open) x.(x_shut) x.(x_sendq) x.(x_qbytes) x.(x_buf) x.(x_w) x.(x_r) x.(x_c) x.(x_timer) x.(x_ready) x.(x_changes) (x.(x_acc) ++ [p]) x.(x_net) x.(x_in) x.(x_got).
Definition add_net d x := Xp x.(x_tcp) x.(x_perm) x.(x_state) x.(x_open) x.(x_shut) x.(x_sendq) x.(x_qbytes) x.(x_buf) x.(x_w) x.(x_r) x.(x_c) x.(x_timer) x.(x_ready) x.(x_changes) x.(x_acc) (x.(x_net) ++ d) x.(x_in) x.(x_got).
Definition add_in d l x := Xp x.(x_tcp) x.(x_perm) x.(x_state) x.(x_open) x.(x_shut) x.(x_sendq) x.(x_qbytes) x.(x_buf) x.(x_w) x.(x_r) x.(x_c) x.(x_timer) x.(x_ready) x.(x_changes) x.(x_acc) x.(x_net) (x.(x_in) ++ d) (x.(x_got) ++ l).
Definition new_logs x := Xp x.(x_tcp) x.(x_perm) x.(x_state) x.(x_open) x.(x_shut) x.(x_sendq) x.(x_qbytes) x.(x_buf) x.(x_w) x.(x_r) x.(x_c) x.(x_timer) x.(x_ready) x.(x_changes) [] [] [] [].

(** transport.cpp:169-208 setState; None: the exception for an invalid transition *)
Definition set_state (v : tstate) (x : xp) : option xp :=
  if bool_decide (x_state x = v) then Some x
  else if valid_change (x_state x) v then Some (set_xstate v x) else None.

(** socket::cancel(): the handlers of everything started are called with operation_aborted *)
Definition cancel (x : xp) : xp :=
  set_ops [] 0 0 (set_ready (x_ready x ++ map (fun w => HSend (Some EAborted) 0) (x_w x) ++ replicate (x_r x) (HRecv (Some EAborted) []) ++ replicate (x_c x) (HConn (Some EAborted))) x).
Definition queue (h : handler) (x : xp) : xp := set_ready (x_ready x ++ [h]) x.

(** stream-transport.hpp:139-165 doClose, tcp-transport.cpp:178-183 *)
Definition do_close (x : xp) : xp :=
  let x1 := if x_tcp x then set_timer false x else x in
  let x2 := if x_open x1 then set_sock true true (cancel x1) else x1 in
  queue HClose x2.
(** stream-transport.hpp:167-180 deferredClose, 300-308 resetSendQueue; close() also cancels *)
Definition deferred_close (x : xp) : option xp :=
  set_state TClosed (set_sock false (x_shut x) (cancel (set_sendq [] 0 x))).

(** stream-transport.hpp:200-206 sendFromQueue; None: front() of an empty queue *)
Definition send_from_queue (x : xp) : option xp :=
  match x_sendq x with
  | [] => None
  | p :: _ => Some (set_ops (x_w x ++ [(p, len p)]) (x_r x) (x_c x) x)
  end.
(** stream-transport.hpp:182-198 doSend *)
Definition do_send (p : list N) (x : xp) : option xp :=
  match x_state x with
  | TUp =>
      let x1 := add_acc p (set_sendq (x_sendq x ++ [p]) (x_qbytes x + len p) x) in
      match x_sendq x with [] => send_from_queue x1 | _ => Some x1 end
  | _ => Some x
  end.
(** transport.cpp:80-100 send; counters are not modelled *)
Definition transport_send (p : list N) (x : xp) : option xp :=
  match x_state x with TUp | TDown => do_send p x | _ => Some x end.
(** transport.cpp:67-78 close *)
Definition transport_close (x : xp) : option xp :=
  match x_state x with
  | TUp | TDown => match set_state TClosing x with Some x1 => Some (do_close x1) | None => None end
  | _ => Some x
  end.

(** stream-transport.hpp:287-298 handleError; tcp-transport.cpp:96-114 *)
Definition handle_error (e : err) (x : xp) : option xp :=
  if x_tcp x && x_perm x then
    match set_state TDown x with
    | Some x1 => Some (queue HReconnect (cancel x1))
    | None => None
    end
  else
    match set_state (match e with EEof => TClosing | _ => TFailed end) x with
    | Some x1 => Some (do_close x1)
    | None => None
    end.
(** stream-transport.hpp:270-285 processErrorCode *)
Definition process_error (e : err) (x : xp) : option xp :=
  match x_state x, e with
  | (TClosing | TFailed | TClosed), _ => Some x
  | _, (EAborted | EShut) => Some x
  | _, _ => handle_error e x
  end.

(** stream-transport.hpp:208-225 handleSend; None: an assertion *)
Definition handle_send (r : option err) (n : N) (x : xp) : option xp :=
  match r with
  | Some e => process_error e x
  | None =>
      match x_sendq x with
      | [] => None
      | p :: q =>
          if (len p =? n)%N then
            let x1 := set_sendq q (x_qbytes x - n) x in
            match q with [] => Some x1 | _ => send_from_queue x1 end
          else None
      end
  end.

(** stream-transport.hpp:227-236 startReceive; None: the assertion *)
Definition start_receive (x : xp) : option xp :=
  match x_state x with TUp => Some (set_ops (x_w x) (S (x_r x)) (x_c x) x) | _ => None end.
(** stream-transport.hpp:238-268 handleReceive *)
Definition handle_receive (r : option err) (d : list N) (x : xp) : option xp :=
  match r with
  | Some e => process_error e x
  | None =>
      let all := x_buf x ++ d in
      let '(es, rest) := parse (length all) all in
      let x1 := add_in d es (set_buf all x) in
      match rest with
      | [] => start_receive (set_buf [] x1)
      | _ =>
          if negb (length rest =? length all)%nat then start_receive (set_buf rest x1)
          else if (len rest =? MAX_PACKET)%N then
            match set_state TFailed x1 with Some x2 => Some (do_close x2) | None => None end
          else start_receive x1
      end
  end.

(** tcp-transport.cpp:116-140 reconnect; None: an assertion.  The socket is replaced: what was started on the old one
    is aborted *)
Definition reconnect (x : xp) : option xp :=
  match x_state x with
  | TClosing | TFailed | TClosed => Some x
  | TUp => None
  | TDown =>
      if x_perm x then
        let x1 := new_logs (set_sendq [] 0 (set_buf [] (set_sock true false (cancel x)))) in
        Some (set_ops (x_w x1) (x_r x1) (S (x_c x1)) (set_timer true x1))
      else None
  end.
(** tcp-transport.cpp:142-164 handleReconnect *)
Definition handle_reconnect (r : option err) (x : xp) : option xp :=
  match x_state x, r with
  | (TClosing | TFailed | TClosed), _ => Some x
  | _, Some _ => Some x
  | _, None => match set_state TUp (set_timer false x) with Some x1 => start_receive x1 | None => None end
  end.
(** tcp-transport.cpp:166-176 handleReconnectTimeout: the socket is closed *)
Definition reconnect_timeout (x : xp) : xp := queue HReconnect (set_sock false (x_shut x) (cancel (set_timer false x))).
(** tcp-transport.cpp:87-94 afterChangePersistency *)
Definition change_persistency (perm : bool) (x : xp) : option xp :=
  let x1 := set_xperm perm x in
  if x_tcp x && x_perm x && negb perm then
    match x_state x1 with
    | TDown => match set_state TFailed x1 with Some x2 => Some (do_close x2) | None => None end
    | _ => Some x1
    end
  else Some x1.

(** what can happen *)
Inductive xev :=
| XSend (p : list N)                    (* the link service sends a packet *)
| XClose                                (* close() *)
| XPersistency (perm : bool)
| XTimer                                (* the reconnection timer fires *)
| XRun                                  (* the next handler runs *)
| IoWritten (i : nat) (k : nat)         (* the i-th write makes progress: k octets *)
| IoWriteError (i : nat) (e : err)
| IoReceived (d : list N)
| IoReceiveError (e : err)
| IoConnected (r : option err).
(** what a socket can do *)
Definition io_ok (x : xp) (e : xev) : Prop :=
  match e with
  | IoWritten i k => x_open x = true /\ x_shut x = false /\ exists p n, x_w x !! i = Some (p, n) /\ (0 < k <= length p)%nat
  | IoWriteError i e => (exists w, x_w x !! i = Some w) /\ e <> EAborted /\ (e = EShut -> x_shut x = true)
  | IoReceived d => x_open x = true /\ x_shut x = false /\ (0 < x_r x)%nat /\ d <> [] /\ (len (x_buf x) + len d <= MAX_PACKET)%N
  | IoReceiveError e => (0 < x_r x)%nat /\ e <> EAborted /\ (e = EShut -> x_shut x = true)
  | IoConnected r => (0 < x_c x)%nat /\ r <> Some EAborted
  | XTimer => x_timer x = true
  | XRun => x_ready x <> []
  | XSend p => p <> []
  | _ => True
  end.
Definition x_step (x : xp) (e : xev) : option xp :=
  match e with
  | XSend p => transport_send p x
  | XClose => transport_close x
  | XPersistency b => change_persistency b x
  | XTimer => Some (reconnect_timeout x)
  | XRun =>
      match x_ready x with
      | [] => Some x
      | h :: l =>
          let x1 := set_ready l x in
          match h with
          | HSend r n => handle_send r n x1
          | HRecv r d => handle_receive r d x1
          | HClose => deferred_close x1
          | HReconnect => reconnect x1
          | HConn r => handle_reconnect r x1
          end
      end
  | IoWritten i k =>
      match x_w x !! i with
      | None => Some x
      | Some (p, n) =>
          let x1 := add_net (take k p) x in
          if (length p <=? k)%nat then Some (queue (HSend None n) (set_ops (delete i (x_w x)) (x_r x) (x_c x) x1))
          else Some (set_ops (<[i := (drop k p, n)]> (x_w x)) (x_r x) (x_c x) x1)
      end
  | IoWriteError i e => Some (queue (HSend (Some e) 0) (set_ops (delete i (x_w x)) (x_r x) (x_c x) x))
  | IoReceived d => Some (queue (HRecv None d) (set_ops (x_w x) (Nat.pred (x_r x)) (x_c x) x))
  | IoReceiveError e => Some (queue (HRecv (Some e) []) (set_ops (x_w x) (Nat.pred (x_r x)) (x_c x) x))
  | IoConnected r => Some (queue (HConn r) (set_ops (x_w x) (x_r x) (Nat.pred (x_c x)) x))
  end.
(** stream-transport.hpp:116-125: the constructor starts to receive; the socket is connected *)
Definition x_new (tcp perm : bool) : xp := Xp tcp perm TUp true false [] 0 [] [] 1 0 false [] [] [] [] [] [].
