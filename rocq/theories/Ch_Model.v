(** TCP and UDP channels and factories as far as the creation of unicast faces goes: daemon/face/tcp-factory.cpp, tcp-channel.cpp, udp-factory.cpp, udp-channel.cpp, with the face
    manager in front of them (Fm_Model).  Reading of the configuration is not modelled: the channels are given.  Multicast faces, packets and the reconnection of permanent faces are not
    modelled here.  What the operating system does is in the events. *)
From Coq Require Import String.
From stdpp Require Import gmap strings.
From Verif Require Import Lib Fm_Model.
Open Scope string_scope.
Open Scope list_scope.

(** boost::asio::ip::address and endpoint: IPv4 or IPv6, the address as a number, and the port *)
Record addr := Addr { a_v6 : bool; a_num : N }.
Record endpoint := Endpoint { e_addr : addr; e_port : N }.
Global Instance addr_eq_dec : EqDecision addr.
Proof. solve_decision. Defined.
Global Instance endpoint_eq_dec : EqDecision endpoint.
Proof. solve_decision. Defined.
Global Instance endpoint_countable : Countable endpoint.
Proof.
  refine (inj_countable' (fun e => (a_v6 (e_addr e), a_num (e_addr e), e_port e)) (fun x => Endpoint (Addr (fst (fst x)) (snd (fst x))) (snd x)) _).
  by intros [[] ?].
Defined.
(** is_loopback: 127.0.0.0/8 and ::1; is_multicast: 224.0.0.0/4 and ff00::/8 *)
Definition loopback (a : addr) : bool := if a_v6 a then (a_num a =? 1)%N else (a_num a / 2 ^ 24 =? 127)%N.
Definition multicast (a : addr) : bool := if a_v6 a then (a_num a / 2 ^ 120 =? 255)%N else (a_num a / 2 ^ 28 =? 14)%N.

Inductive proto := Tcp | Udp.
Global Instance proto_eq_dec : EqDecision proto.
Proof. solve_decision. Defined.
(** TcpChannel, UdpChannel: its protocol, the family of its local endpoint, whether its faces mark congestion by default, the idle timeout and the MTU of its faces (UDP), whether it
    waits for a new connection or peer, and the faces by remote endpoint, here as identifiers *)
Record chan := Chan {
  ch_proto : proto; ch_v6 : bool; ch_mark : bool; ch_idle : Z; ch_mtu : Z; ch_waiting : bool; ch_faces : gmap endpoint N;
}.
Definition set_waiting b c := Chan (ch_proto c) (ch_v6 c) (ch_mark c) (ch_idle c) (ch_mtu c) b (ch_faces c).
Definition set_ch_faces m c := Chan (ch_proto c) (ch_v6 c) (ch_mark c) (ch_idle c) (ch_mtu c) (ch_waiting c) m.

(** where a connection attempt stands: waiting for the operating system; or its handler is queued, with an error, as aborted, or connected from that local endpoint *)
Inductive progress := Waiting | Errored | Aborted | Connected (local : endpoint).
(** an attempt to connect: tcp-channel.cpp:85-95; the socket is closed by the timeout only *)
Record attempt := Attempt { at_chan : nat; at_remote : endpoint; at_params : params; at_req : request; at_progress : progress; at_timer : bool; at_open : bool }.

(** the manager, channels, attempts by number of the command, how many commands there were, and answers with the number of the command, the last one first *)
Record world := World { w_fm : fm; w_chans : list chan; w_tries : gmap N attempt; w_next : N; w_answers : list (N * response) }.
Definition answer (n : N) (r : response) (w : world) : world := World (w_fm w) (w_chans w) (w_tries w) (w_next w) ((n, r) :: w_answers w).
Definition set_fm s (w : world) : world := World s (w_chans w) (w_tries w) (w_next w) (w_answers w).
Definition set_chan k c (w : world) : world := World (w_fm w) (<[k := c]> (w_chans w)) (w_tries w) (w_next w) (w_answers w).
Definition set_try n (a : option attempt) (w : world) : world := World (w_fm w) (w_chans w) (partial_alter (fun _ => a) n (w_tries w)) (w_next w) (w_answers w).

(** generic-link-service.hpp:130-140 the defaults, in nanoseconds and bytes *)
Definition DEFAULT_INTERVAL : Z := 100000000.
Definition DEFAULT_THRESHOLD : N := 65536.

(** tcp-factory.cpp:151-182: the code with which it refuses, Some None if it does not; None is the assertion *)
Definition tcp_check (q : request) (e : endpoint) : option (option N) :=
  match q_local q with
  | Some _ => Some (Some 406%N)
  | None =>
      if decide (q_persist q = OnDemand) then Some (Some 406%N)
      else if multicast (e_addr e) then None
      else if q_lf q && negb (loopback (e_addr e)) then Some (Some 406%N)
      else match q_mtu q with Some _ => Some (Some 406%N) | None => Some None end
  end.
(** udp-factory.cpp:249-286 *)
Definition udp_check (q : request) (e : endpoint) : option N :=
  match q_local q with
  | Some _ => Some 406%N
  | None =>
      if decide (q_persist q = OnDemand) then Some 406%N
      else if multicast (e_addr e) then Some 406%N
      else if q_lf q then Some 406%N
      else match q_mtu q with Some m => if (m <? MIN_MTU)%Z then Some 406%N else None | None => None end
  end.
(** tcp-factory.cpp:184-191, udp-factory.cpp:288-295: the first channel of that address family *)
Fixpoint find_chan (p : proto) (v6 : bool) (k : nat) (l : list chan) : option nat :=
  match l with
  | [] => None
  | c :: l' => if decide (ch_proto c = p) then if Bool.eqb (ch_v6 c) v6 then Some k else find_chan p v6 (S k) l' else find_chan p v6 (S k) l'
  end.
(** udp-protocol.cpp:32-45 computeMtu *)
Definition udp_mtu (v6 : bool) : Z := if v6 then 65535 - 8 else 65535 - 60 - 8.

Section channels.
  (** FaceUri::parse and isCanonical; host and port of a URI, and FaceUri(endpoint) (ndn-cxx); which protocol has a scheme; TcpFactory::m_local *)
  Variable parse : string -> option uri.
  Variable canonical : uri -> bool.
  Variable endpoint_of : uri -> endpoint.
  Variable uri_of : proto -> endpoint -> uri.
  Variable proto_of : string -> option proto.
  Variable is_local : addr -> bool.

  (** tcp-channel.cpp:116-138: the new face; tcp-factory.cpp:217-225 determineFaceScopeFromAddresses; tcp-transport.cpp:41-57 *)
  Definition tcp_face (c : chan) (q : request) (remote local : endpoint) : mface :=
    MFace (uri_of Tcp remote) (uri_of Tcp local) (is_local (e_addr local) && is_local (e_addr remote)) PointToPoint KTcp MTU_UNLIMITED
      (Some (Options (q_lf q) (q_rel q) (default (ch_mark c) (q_mark q)) (default DEFAULT_INTERVAL (q_interval q)) (default DEFAULT_THRESHOLD (q_threshold q)) SSIZE_MAX))
      (q_persist q) Up None [].
  (** udp-channel.cpp:156-186: the new face; unicast-udp-transport.cpp:43-82 *)
  Definition udp_face (now : Z) (c : chan) (q : request) (remote local : endpoint) : mface :=
    MFace (uri_of Udp remote) (uri_of Udp local) false PointToPoint (KUnicast (ch_idle c)) (udp_mtu (a_v6 (e_addr local)))
      (Some (Options false (q_rel q) (default (ch_mark c) (q_mark q)) (default DEFAULT_INTERVAL (q_interval q)) (default DEFAULT_THRESHOLD (q_threshold q)) (default (ch_mtu c) (q_mtu q))))
      (q_persist q) Up (if decide (q_persist q = OnDemand) then if (0 <? ch_idle c)%Z then Some (now + ch_idle c)%Z else None else None) [].
  (** tcp-channel.cpp:183-185, udp-channel.cpp:120-122: the parameters for an incoming connection or a new peer *)
  Definition incoming (remote : uri) (mtu : option Z) : request := Request remote None OnDemand None None mtu false false None.

  (** tcp-channel.cpp:97-155, udp-channel.cpp:142-191 createFace, then what the manager does with the face for command [n]; [fc] is the new face, if one is to be made *)
  Definition hand_over (k : nat) (remote : endpoint) (fc : mface) (n : N) (p : params) (w : world) : option world :=
    match w_chans w !! k with
    | None => None
    | Some c =>
        match ch_faces c !! remote with
        | Some id =>
            match create_done p (MadeOld id) (w_fm w) with
            | Some (s, r) => Some (answer n r (set_fm s w))
            | None => None
            end
        | None =>
            match create_done p (MadeNew fc) (w_fm w) with
            | Some (s, r) => Some (answer n r (set_chan k (set_ch_faces (<[remote := fm_last s]> (ch_faces c)) c) (set_fm s w)))
            | None => None
            end
        end
    end.
  (** the same for an incoming connection or a new peer, with FaceTable::add as the callback (face-table.cpp:51-62; face-system.cpp) *)
  Definition take_in (k : nat) (remote : endpoint) (fc : mface) (w : world) : option world :=
    match w_chans w !! k with
    | None => None
    | Some c =>
        match ch_faces c !! remote with
        | Some _ => Some w
        | None =>
            match add_face fc (w_fm w) with
            | Some (s, id) => Some (set_chan k (set_ch_faces (<[remote := id]> (ch_faces c)) c) (set_fm s w))
            | None => None
            end
        end
    end.

  (** a create command, number [w_next]: face-manager.cpp:81-148, the factory, and the channel up to its first callback.  [os] is the local endpoint of a UDP socket, None if it cannot be
      opened, bound or connected. *)
  Definition command (now : Z) (p : params) (os : option endpoint) (w0 : world) : option world :=
    let n := w_next w0 in
    let w := World (w_fm w0) (w_chans w0) (w_tries w0) (n + 1) (w_answers w0) in
    match create_request parse canonical (fun t => match proto_of t with Some _ => true | None => false end) p with
    | inl r => Some (answer n r w)
    | inr q =>
        let remote := endpoint_of (q_remote q) in
        match proto_of (u_scheme (q_remote q)) with
        | None => None
        | Some Tcp =>
            match tcp_check q remote with
            | None => None
            | Some (Some code) => Some (answer n (Response code None) w)
            | Some None =>
                match find_chan Tcp (a_v6 (e_addr remote)) 0 (w_chans w) with
                | None => Some (answer n (Response 504 None) w)
                | Some k =>
                    match w_chans w !! k with
                    | None => None
                    | Some c =>
                        match ch_faces c !! remote with
                        | Some id => match create_done p (MadeOld id) (w_fm w) with Some (s, r) => Some (answer n r (set_fm s w)) | None => None end
                        | None => Some (set_try n (Some (Attempt k remote p q Waiting true true)) w)
                        end
                    end
                end
            end
        | Some Udp =>
            match udp_check q remote with
            | Some code => Some (answer n (Response code None) w)
            | None =>
                match find_chan Udp (a_v6 (e_addr remote)) 0 (w_chans w) with
                | None => Some (answer n (Response 504 None) w)
                | Some k =>
                    match w_chans w !! k with
                    | None => None
                    | Some c =>
                        match ch_faces c !! remote, os with
                        | None, None => Some (answer n (Response 504 None) w)
                        | None, Some local => hand_over k remote (udp_face now c q remote local) n p w
                        | Some id, _ => match create_done p (MadeOld id) (w_fm w) with Some (s, r) => Some (answer n r (set_fm s w)) | None => None end
                        end
                    end
                end
            end
        end
    end.
  (** the operating system is done with an attempt: connected from that endpoint, or an error *)
  Definition finished (n : N) (r : option endpoint) (w : world) : option world :=
    match w_tries w !! n with
    | Some (Attempt k e p q Waiting t true) => Some (set_try n (Some (Attempt k e p q (match r with Some l => Connected l | None => Errored end) t true)) w)
    | _ => None
    end.
  (** tcp-channel.cpp:224-236 handleConnectTimeout; closing the socket aborts the attempt unless its handler is queued *)
  Definition timed_out (n : N) (w : world) : option world :=
    match w_tries w !! n with
    | Some (Attempt k e p q g true o) =>
        Some (answer n (Response 504 None) (set_try n (Some (Attempt k e p q (match g with Waiting => Aborted | _ => g end) false false)) w))
    | _ => None
    end.
  (** tcp-channel.cpp:194-222 handleConnect *)
  Definition handle_connect (n : N) (w : world) : option world :=
    match w_tries w !! n with
    | Some (Attempt k e p q g t o) =>
        let w' := set_try n None w in
        match g with
        | Waiting => None
        | Aborted => Some w'
        | Errored => Some (answer n (Response 504 None) w')
        | Connected local =>
            if o then
              match w_chans w !! k with
              | Some c => hand_over k e (tcp_face c q e local) n p w'
              | None => None
              end
            else Some (answer n (Response 500 None) w')                                  (* tcp-channel.cpp:105-113 *)
        end
    | None => None
    end.
  (** tcp-channel.cpp:157-192 accept: a connection from [remote] to [local], or None if it failed *)
  Definition accepted (k : nat) (r : option (endpoint * endpoint)) (w : world) : option world :=
    match w_chans w !! k with
    | Some c =>
        match ch_proto c, ch_waiting c with
        | Tcp, true =>
            match r with
            | None => Some (set_chan k (set_waiting false c) w)
            | Some (remote, local) => take_in k remote (tcp_face c (incoming (uri_of Tcp remote) None) remote local) w
            end
        | _, _ => None
        end
    | None => None
    end.
  (** udp-channel.cpp:98-140 handleNewPeer: a datagram from [remote], None if receiving failed; [os] as above *)
  Definition new_peer (now : Z) (k : nat) (r : option endpoint) (os : option endpoint) (w : world) : option world :=
    match w_chans w !! k with
    | Some c =>
        match ch_proto c, ch_waiting c with
        | Udp, true =>
            match r with
            | None => Some (set_chan k (set_waiting false c) w)
            | Some remote =>
                match ch_faces c !! remote, os with
                | Some _, _ => Some w
                | None, None => Some (set_chan k (set_waiting false c) w)
                | None, Some local => take_in k remote (udp_face now c (incoming (uri_of Udp remote) (Some (ch_mtu c))) remote local) w
                end
            end
        | _, _ => None
        end
    | None => None
    end.
  (** a face leaves the channels when it is closed: tcp-channel.cpp:144, udp-channel.cpp:188 *)
  Definition forget (id : N) (c : chan) : chan := set_ch_faces (base.filter (fun x => snd x <> id) (ch_faces c)) c.
  (** a change of state of the transport of a face (Fm_Model) *)
  Definition transport_state (id : N) (st : tstate) (w : world) : option world :=
    match change_state id st (w_fm w) with
    | None => None
    | Some s =>
        let chans := match fm_faces s !! id with None => map (forget id) (w_chans w) | Some _ => w_chans w end in
        Some (World s chans (w_tries w) (w_next w) (w_answers w))
    end.

  Inductive w_event :=
  | WCommand (now : Z) (p : params) (os : option endpoint)
  | WFinished (n : N) (r : option endpoint)
  | WTimeout (n : N)
  | WHandle (n : N)
  | WAccepted (k : nat) (r : option (endpoint * endpoint))
  | WPeer (now : Z) (k : nat) (r : option endpoint) (os : option endpoint)
  | WUpdate (now : Z) (tag : option N) (p : params)
  | WDestroy (p : params)
  | WState (id : N) (st : tstate).
  Definition w_step (w : world) (e : w_event) : option world :=
    match e with
    | WCommand now p os => command now p os w
    | WFinished n r => finished n r w
    | WTimeout n => timed_out n w
    | WHandle n => handle_connect n w
    | WAccepted k r => accepted k r w
    | WPeer now k r os => new_peer now k r os w
    | WUpdate now tag p => (fun x => set_fm (fst x) w) <$> update_face now tag p (w_fm w)
    | WDestroy p => Some (set_fm (fst (destroy_face p (w_fm w))) w)
    | WState id st => transport_state id st w
    end.
  Fixpoint w_run (w : world) (l : list w_event) : option world :=
    match l with
    | [] => Some w
    | e :: l' => match w_step w e with Some w' => w_run w' l' | None => None end
    end.
  (** channels without faces *)
  Definition w_new (cs : list chan) : world := World fm_new (map (set_ch_faces ∅) cs) ∅ 0 [].
End channels.
