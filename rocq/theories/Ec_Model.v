(** The Ethernet channel: daemon/face/ethernet-channel.cpp, with the kernel's queues of frames and as much of the unicast faces as is needed to see where frames go.
    libpcap and the kernel are in the events: whether handles, sockets and filters can be made, which frames arrive and when.  [c_drain] says whether setting a filter discards the frames
    that wait in the queue (libpcap on Linux does).  The MTU and the states of transports are in Et_Model; idle timeouts and URIs are not modelled here. *)
From stdpp Require Import gmap.
From Verif Require Import Lib Fm_Model Lp_Model Tp_Model Et_Model.
Open Scope list_scope.

(** exceptions: PcapHelper::Error, EthernetTransport::Error, boost::system::system_error *)
Inductive exn := XPcap | XTransport | XSystem.
(** a unicast face: remote address, persistency, whether it still captures, frames that wait, packets that were passed to the link service *)
Record eface := EFace { ef_remote : mac; ef_pers : persistency; ef_open : bool; ef_q : list (list N); ef_got : list (list N) }.
Record ec := Ec {
  c_local : mac;                 (* the address of the interface *)
  c_debug : bool;
  c_drain : bool;
  c_listening : bool;            (* m_isListening *)
  c_capturing : bool;            (* m_pcap is activated *)
  c_waiting : bool;              (* a wait for the next frame is pending *)
  c_filter : list mac;           (* the addresses that the installed filter excludes *)
  c_q : list (list N);           (* frames that wait *)
  c_peers : gmap mac N;          (* m_channelFaces *)
  c_faces : gmap N eface;        (* every face that was made and has not reached CLOSED, by number *)
  c_next : N;
  c_told : list N;               (* onFaceCreated was called with these *)
}.
Definition set_listening b d e c := Ec (c_local c) (c_debug c) (c_drain c) b d e (c_filter c) (c_q c) (c_peers c) (c_faces c) (c_next c) (c_told c).
Definition set_filter l q c := Ec (c_local c) (c_debug c) (c_drain c) (c_listening c) (c_capturing c) (c_waiting c) l q (c_peers c) (c_faces c) (c_next c) (c_told c).
Definition set_peers m c := Ec (c_local c) (c_debug c) (c_drain c) (c_listening c) (c_capturing c) (c_waiting c) (c_filter c) (c_q c) m (c_faces c) (c_next c) (c_told c).
Definition set_faces m c := Ec (c_local c) (c_debug c) (c_drain c) (c_listening c) (c_capturing c) (c_waiting c) (c_filter c) (c_q c) (c_peers c) m (c_next c) (c_told c).
Definition set_next n c := Ec (c_local c) (c_debug c) (c_drain c) (c_listening c) (c_capturing c) (c_waiting c) (c_filter c) (c_q c) (c_peers c) (c_faces c) n (c_told c).
Definition tell id c := Ec (c_local c) (c_debug c) (c_drain c) (c_listening c) (c_capturing c) (c_waiting c) (c_filter c) (c_q c) (c_peers c) (c_faces c) (c_next c) (c_told c ++ [id]).
Definition set_ef_q q x := EFace (ef_remote x) (ef_pers x) (ef_open x) q (ef_got x).
Definition set_ef_open b x := EFace (ef_remote x) (ef_pers x) b (ef_q x) (ef_got x).
Definition add_ef_got p x := EFace (ef_remote x) (ef_pers x) (ef_open x) (ef_q x) (ef_got x ++ [p]).

(** a frame arrives: each capture whose filter it passes gets it (unicast-ethernet-transport.cpp:51-59, ethernet-channel.cpp:214-231, pcap-helper.cpp:40-56) *)
Definition face_arrive (local : mac) (f : list N) (x : eface) : eface :=
  if ef_open x && passes 0 (unicast_filter local (ef_remote x)) f then set_ef_q (ef_q x ++ [f]) x else x.
Definition arrive (f0 : list N) (c : ec) : ec :=
  let f := capture f0 in
  let c1 := if c_capturing c && passes 0 (channel_filter (c_local c) (c_filter c)) f then set_filter (c_filter c) (c_q c ++ [f]) c else c in
  set_faces (face_arrive (c_local c) f <$> c_faces c) c1.
(** ethernet-channel.cpp:214-231 updateFilter; [ok]: libpcap takes the filter; None: PcapHelper::Error, also when the handle was not activated *)
Definition update_filter (ok : bool) (c : ec) : option ec :=
  if c_listening c then
    if c_capturing c && ok then Some (set_filter (map fst (map_to_list (c_peers c))) (if c_drain c then [] else c_q c) c) else None
  else Some c.
(** ethernet-channel.cpp:178-212 createFace; [os]: the exception of the transport's constructor; [gap]: frames that arrive between the two filters *)
Definition create_face (remote : mac) (p : persistency) (os : option exn) (gap : list (list N)) (ok : bool) (c : ec) : (exn + bool * N) * ec :=
  match c_peers c !! remote with
  | Some id => (inr (false, id), c)
  | None =>
      match os with
      | Some x => (inl x, c)
      | None =>
          let id := c_next c in
          let c1 := set_next (id + 1) (set_faces (<[id := EFace remote p true [] []]> (c_faces c)) (set_peers (<[remote := id]> (c_peers c)) c)) in
          let c2 := foldl (fun c f => arrive f c) c1 gap in
          match update_filter ok c2 with
          | Some c3 => (inr (true, id), c3)
          | None => (inl XPcap, c2)
          end
      end
  end.
(** ethernet-channel.cpp:51-71 connect: onFaceCreated, onConnectFailed with 504, or an exception *)
Inductive outcome := Made (id : N) | Refused (code : N) | Throws (x : exn).
Definition connect (remote : mac) (p : persistency) (os : option exn) (gap : list (list N)) (ok : bool) (c : ec) : outcome * ec :=
  match create_face remote p os gap ok c with
  | (inr (_, id), c') => (Made id, tell id c')
  | (inl XSystem, c') => (Refused 504, c')
  | (inl x, c') => (Throws x, c')
  end.
(** ethernet-transport.cpp:194-208 receivePayload *)
Definition deliver (id : N) (payload : list N) (c : ec) : ec :=
  match from_buffer payload with
  | Some (b, _) => set_faces (alter (add_ef_got b) id (c_faces c)) c
  | None => c
  end.
(** ethernet-channel.cpp:73-94 listen; [os]: the handle can be activated and its descriptor taken; the exception is told by false *)
Definition listen (os ok : bool) (c : ec) : ec * bool :=
  if c_listening c then (c, true)
  else let c1 := set_listening true os false c in
       if os then match update_filter ok c1 with Some c2 => (set_listening true true true c2, true) | None => (c1, false) end
       else (c1, false).
(** ethernet-channel.cpp:105-144 handleRead without an error, 146-176 processIncomingPacket; None: an exception that leaves the handler *)
Definition read_channel (os : option exn) (gap : list (list N)) (ok : bool) (c : ec) : option ec :=
  match c_q c with
  | [] => Some c
  | f :: q =>
      let c1 := set_filter (c_filter c) q c in
      match check_header (c_debug c) (c_local c) (c_local c) f with
      | None => Some c1
      | Some sender =>
          match create_face sender OnDemand os gap ok c1 with
          | (inr (created, id), c2) => Some (deliver id (drop HDR_LEN f) (if created then tell id c2 else c2))
          | (inl XTransport, c2) => Some c2
          | (inl _, _) => None
          end
      end
  end.
(** ethernet-transport.cpp:152-191 handleRead of a unicast face *)
Definition read_face (id : N) (c : ec) : ec :=
  match c_faces c !! id with
  | None => c
  | Some x =>
      match ef_q x with
      | [] => c
      | f :: q =>
          let c1 := set_faces (<[id := set_ef_q q x]> (c_faces c)) c in
          match check_header (c_debug c) (c_local c) (c_local c) f with
          | None => c1
          | Some _ => deliver id (drop HDR_LEN f) c1
          end
      end
  end.
(** ethernet-transport.cpp:73-92: a face stops capturing *)
Definition closing (id : N) (c : ec) : ec := set_faces (alter (fun x => set_ef_q [] (set_ef_open false x)) id (c_faces c)) c.
(** ethernet-channel.cpp:204-207: and is CLOSED *)
Definition closed (id : N) (ok : bool) (c : ec) : option ec :=
  match c_faces c !! id with
  | None => Some c
  | Some x => update_filter ok (set_faces (delete id (c_faces c)) (set_peers (delete (ef_remote x) (c_peers c)) c))
  end.

Inductive ec_event :=
| CListen (os ok : bool)
| CConnect (remote : mac) (p : persistency) (os : option exn) (gap : list (list N)) (ok : bool)
| CArrive (f : list N)
| CRead (os : option exn) (gap : list (list N)) (ok : bool)
| CReadFace (id : N)
| CError                              (* the channel's wait fails: ethernet-channel.cpp:110-117 *)
| CClosing (id : N)
| CClosed (id : N) (ok : bool).
Definition ec_step (c : ec) (e : ec_event) : option ec :=
  match e with
  | CListen os ok => Some (fst (listen os ok c))
  | CConnect remote p os gap ok => Some (snd (connect remote p os gap ok c))
  | CArrive f => Some (arrive f c)
  | CRead os gap ok => if c_waiting c then read_channel os gap ok c else Some c
  | CReadFace id => Some (read_face id c)
  | CError => Some (set_listening (c_listening c) (c_capturing c) false c)
  | CClosing id => Some (closing id c)
  | CClosed id ok => closed id ok c
  end.
(** ethernet-channel.cpp:40-49 *)
Definition ec_new (local : mac) (debug drain : bool) : ec := Ec local debug drain false false false [] [] ∅ ∅ 0 [].
