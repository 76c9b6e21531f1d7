(** The face management: daemon/mgmt/face-manager.cpp, on the faces in daemon/fw/face-table.cpp, with what it reads and changes of
    transports (daemon/face/transport.cpp, tcp-transport.cpp, unicast-udp-transport.cpp, unicast-ethernet-transport.cpp) and of
    the generic link service (daemon/face/generic-link-service.cpp).  Decoding of commands and the text of answers are not
    modelled. *)
From Coq Require Import String.
From stdpp Require Import gmap strings.
From Verif Require Import Lib.
Open Scope string_scope.
Open Scope list_scope.

(** ndn::FaceUri: its scheme, and toString() *)
Record uri := Uri { u_scheme : string; u_text : string }.
(** ndn::nfd::FacePersistency, LinkType *)
Inductive persistency := Persistent | OnDemand | Permanent.
Inductive link_type := PointToPoint | MultiAccess | AdHoc.
(** transport.hpp:42-49 TransportState *)
Inductive tstate := Up | Down | Closing | Failed | Closed.
(** which class the transport is of, as far as persistency goes: TcpTransport; UnicastUdpTransport or UnicastEthernetTransport, with
    the idle timeout in nanoseconds; another one *)
Inductive kind := KTcp | KUnicast (idle : Z) | KOther.
(** generic-link-service.hpp:95-154 GenericLinkServiceOptions, without those that nothing here reads or changes *)
Record options := Options {
  o_local : bool; o_reliable : bool; o_mark : bool; o_interval : Z; o_threshold : N; o_mtu : Z;
}.
(** a face: URIs, scope, link type, transport, and options if its link service is the generic one.  [mf_tmtu] is the MTU of the
    transport, -1 if unlimited; [mf_expires] is getExpirationTime, None is the greatest time. *)
Record mface := MFace {
  mf_remote : uri; mf_local : uri; mf_is_local : bool; mf_link : link_type; mf_kind : kind; mf_tmtu : Z; mf_svc : option options;
  mf_persist : persistency; mf_state : tstate; mf_expires : option Z; mf_counters : list N;
}.
Definition set_persist p fc := MFace (mf_remote fc) (mf_local fc) (mf_is_local fc) (mf_link fc) (mf_kind fc) (mf_tmtu fc) (mf_svc fc) p (mf_state fc) (mf_expires fc) (mf_counters fc).
Definition set_state st fc := MFace (mf_remote fc) (mf_local fc) (mf_is_local fc) (mf_link fc) (mf_kind fc) (mf_tmtu fc) (mf_svc fc) (mf_persist fc) st (mf_expires fc) (mf_counters fc).
Definition set_expires e fc := MFace (mf_remote fc) (mf_local fc) (mf_is_local fc) (mf_link fc) (mf_kind fc) (mf_tmtu fc) (mf_svc fc) (mf_persist fc) (mf_state fc) e (mf_counters fc).
Definition set_svc o fc := MFace (mf_remote fc) (mf_local fc) (mf_is_local fc) (mf_link fc) (mf_kind fc) (mf_tmtu fc) o (mf_persist fc) (mf_state fc) (mf_expires fc) (mf_counters fc).
Definition set_local u fc := MFace (mf_remote fc) u (mf_is_local fc) (mf_link fc) (mf_kind fc) (mf_tmtu fc) (mf_svc fc) (mf_persist fc) (mf_state fc) (mf_expires fc) (mf_counters fc).
Definition set_tmtu m fc := MFace (mf_remote fc) (mf_local fc) (mf_is_local fc) (mf_link fc) (mf_kind fc) m (mf_svc fc) (mf_persist fc) (mf_state fc) (mf_expires fc) (mf_counters fc).

Global Instance uri_eq_dec : EqDecision uri.
Proof. solve_decision. Defined.
Global Instance persistency_eq_dec : EqDecision persistency.
Proof. solve_decision. Defined.
Global Instance link_type_eq_dec : EqDecision link_type.
Proof. solve_decision. Defined.
Global Instance tstate_eq_dec : EqDecision tstate.
Proof. solve_decision. Defined.

(** transport.hpp, face-common.hpp:60-66 MTU_UNLIMITED, MIN_MTU; the greatest ssize_t; ndn::MAX_NDN_PACKET_SIZE *)
Definition MTU_UNLIMITED : Z := -1.
Definition MIN_MTU : Z := 64.
Definition SSIZE_MAX : Z := 2 ^ 63 - 1.
Definition MAX_PACKET : Z := 8800.

(** transport.cpp:128-143 canChangePersistencyTo, with the overrides: tcp-transport.cpp:81-85, unicast-udp-transport.cpp:84-88,
    unicast-ethernet-transport.cpp:67-71, transport.cpp:145-149; persistency is never NONE here *)
Definition can_change (p : persistency) (fc : mface) : bool :=
  if decide (mf_persist fc = p) then true
  else match mf_kind fc with KTcp | KUnicast _ => true | KOther => false end.
(** tcp-transport.cpp:87-98, unicast-udp-transport.cpp:90-102, unicast-ethernet-transport.cpp:73-84 afterChangePersistency;
    doClose is done later *)
Definition after_change (now : Z) (old : persistency) (fc : mface) : mface :=
  match mf_kind fc with
  | KTcp => if decide (old = Permanent) then if decide (mf_state fc = Down) then set_state Failed fc else fc else fc
  | KUnicast idle => if decide (mf_persist fc = OnDemand) then if (0 <? idle)%Z then set_expires (Some (now + idle)%Z) fc else set_expires None fc else set_expires None fc
  | KOther => fc
  end.
(** transport.cpp:151-167 setPersistency; None is the assertion *)
Definition set_persistency (now : Z) (p : persistency) (fc : mface) : option mface :=
  if can_change p fc then
    if decide (mf_persist fc = p) then Some fc else Some (after_change now (mf_persist fc) (set_persist p fc))
  else None.
(** transport.cpp:66-77 close, up to doClose *)
Definition close (fc : mface) : mface :=
  match mf_state fc with Up | Down => set_state Closing fc | _ => fc end.
(** transport.cpp:174-203 setState: the transitions it allows *)
Definition may_become (st st' : tstate) : bool :=
  match st, st' with
  | Up, (Down | Closing | Failed) | Down, (Up | Closing | Failed) | (Closing | Failed), Closed => true
  | _, _ => false
  end.
(** generic-link-service.cpp:62-67 getEffectiveMtu; link-service.hpp:115-119 for other link services *)
Definition effective_mtu (fc : mface) : Z :=
  match mf_svc fc with Some o => Z.min (o_mtu o) (mf_tmtu fc) | None => mf_tmtu fc end.
(** generic-link-service.cpp:69-79 canOverrideMtuTo; face-manager.cpp:305-306 *)
Definition can_override (mtu : Z) (fc : mface) : bool :=
  match mf_svc fc with
  | None => false
  | Some _ => if (mf_tmtu fc =? MTU_UNLIMITED)%Z then false else (MIN_MTU <=? mtu)%Z
  end.

(** ControlParameters of the face commands.  Flags are Some if their bit is in the mask. *)
Record params := Params {
  p_uri : string; p_local_uri : option string; p_face : N; p_persist : option persistency; p_interval : option Z; p_threshold : option N; p_mtu : option N;
  p_lf : option bool; p_rel : option bool; p_mark : option bool;
}.
(** ControlParameters in an answer *)
Record body := Body {
  b_face : option N; b_uri : option string; b_local_uri : option string; b_persist : option persistency; b_interval : option Z; b_threshold : option N; b_mtu : option N;
  b_lf : option bool; b_rel : option bool; b_mark : option bool;
}.
Inductive response := Response (code : N) (b : option body).
(** face-common.hpp FaceParams, and protocol-factory.hpp CreateFaceRequest.  [q_mark] None is indeterminate. *)
Record request := Request {
  q_remote : uri; q_local : option uri; q_persist : persistency; q_interval : option Z; q_threshold : option N; q_mtu : option Z;
  q_lf : bool; q_rel : bool; q_mark : option bool;
}.
(** face-manager.cpp:125-126, 249-250, 303-304 *)
Definition clamp_mtu (m : N) : Z := Z.min SSIZE_MAX (Z.of_N m).
Definition is_true (b : option bool) : bool := match b with Some true => true | _ => false end.

Section create.
  (** FaceUri::parse and isCanonical (ndn-cxx); FaceSystem::getFactoryByScheme: whether there is one *)
  Variable parse : string -> option uri.
  Variable canonical : uri -> bool.
  Variable supported : string -> bool.
  (** face-manager.cpp:81-139: an answer, or what the factory of that scheme is asked for.  ndn-cxx sets the persistency to
      persistent if there is none. *)
  Definition create_request (p : params) : response + request :=
    match parse (p_uri p) with
    | None => inl (Response 400 None)
    | Some remote =>
        if negb (canonical remote) then inl (Response 400 None)
        else
          match match p_local_uri p with
                | None => Some None
                | Some t => match parse t with Some u => if canonical u then Some (Some u) else None | None => None end
                end with
          | None => inl (Response 400 None)
          | Some local =>
              if negb (supported (u_scheme remote)) then inl (Response 406 None)
              else inr (Request remote local (default Persistent (p_persist p)) (p_interval p) (p_threshold p) (clamp_mtu <$> p_mtu p)
                          (is_true (p_lf p)) (is_true (p_rel p)) (p_mark p))
          end
    end.
End create.

(** face-manager.cpp:163-173 copyMtu *)
Definition shown_mtu (fc : mface) : option N :=
  let m := effective_mtu fc in
  if (0 <=? m)%Z then Some (Z.to_N (Z.min m MAX_PACKET)) else if (m =? MTU_UNLIMITED)%Z then Some (Z.to_N MAX_PACKET) else None.
(** face-manager.cpp:175-194 makeUpdateFaceResponse *)
Definition update_body (id : N) (fc : mface) : body :=
  Body (Some id) None None (Some (mf_persist fc)) (o_interval <$> mf_svc fc) (o_threshold <$> mf_svc fc) (shown_mtu fc)
    (o_local <$> mf_svc fc) (o_reliable <$> mf_svc fc) (o_mark <$> mf_svc fc).
(** face-manager.cpp:196-204 makeCreateFaceResponse *)
Definition create_body (id : N) (fc : mface) : body :=
  let b := update_body id fc in
  Body (b_face b) (Some (u_text (mf_remote fc))) (Some (u_text (mf_local fc))) (b_persist b) (b_interval b) (b_threshold b) (b_mtu b) (b_lf b) (b_rel b) (b_mark b).

(** face events: kind, face, and the properties that face-manager.cpp:358-376 copyFaceProperties copies *)
Inductive event_kind := ECreated | EDestroyed | EUp | EDown.
Record properties := Properties {
  r_face : N; r_remote : string; r_local : string; r_is_local : bool; r_persist : persistency; r_link : link_type; r_flags : option (bool * bool * bool);
}.
Definition properties_of (id : N) (fc : mface) : properties :=
  Properties id (u_text (mf_remote fc)) (u_text (mf_local fc)) (mf_is_local fc) (mf_persist fc) (mf_link fc)
    ((fun o => (o_local o, o_reliable o, o_mark o)) <$> mf_svc fc).

(** the face table, and the notifications posted, the last one first *)
Record fm := Fm { fm_faces : gmap N mface; fm_last : N; fm_notes : list (event_kind * properties) }.
Definition put_face (id : N) (fc : mface) (s : fm) : fm := Fm (<[id := fc]> (fm_faces s)) (fm_last s) (fm_notes s).
(** face-manager.cpp:507-515 notifyFaceEvent *)
Definition notify (k : event_kind) (id : N) (fc : mface) (s : fm) : fm := Fm (fm_faces s) (fm_last s) ((k, properties_of id fc) :: fm_notes s).
(** face-table.cpp:51-62, 73-91 add of a face without identifier, addImpl; face-manager.cpp:72-75 *)
Definition add_face (fc : mface) (s : fm) : option (fm * N) :=
  let id := ((fm_last s + 1) mod 2 ^ 64)%N in
  if (id <=? 255)%N then None
  else match fm_faces s !! id with
       | Some _ => None
       | None => Some (notify ECreated id fc (Fm (<[id := fc]> (fm_faces s)) id (fm_notes s)), id)
       end.
(** face-table.cpp:64-71 addReserved *)
Definition add_reserved (fc : mface) (id : N) (s : fm) : option fm :=
  if (id <=? 255)%N then
    match fm_faces s !! id with
    | Some _ => None
    | None => Some (notify ECreated id fc (put_face id fc s))
    end
  else None.

(** what a factory hands to the manager: a new face, or the identifier of one that is in the table *)
Inductive made := MadeNew (fc : mface) | MadeOld (id : N).
(** face-manager.cpp:206-229 afterCreateFaceSuccess; None is an assertion that fails *)
Definition create_done (p : params) (m : made) (s : fm) : option (fm * response) :=
  match m with
  | MadeOld id =>
      match fm_faces s !! id with
      | Some fc => Some (s, Response 409 (Some (create_body id fc)))
      | None => None
      end
  | MadeNew fc =>
      if mf_is_local fc || negb (is_true (p_lf p)) then
        match add_face fc s with
        | Some (s', id) => Some (s', Response 200 (Some (create_body id fc)))
        | None => None
        end
      else None                                                    (* line 220 *)
  end.

(** face-manager.cpp:231-264 updateLinkServiceOptions *)
Definition update_options (p : params) (is_local : bool) (o : options) : options :=
  Options (match p_lf p with Some b => if is_local then b else o_local o | None => o_local o end) (default (o_reliable o) (p_rel p)) (default (o_mark o) (p_mark p))
    (default (o_interval o) (p_interval p)) (default (o_threshold o) (p_threshold p)) (default (o_mtu o) (clamp_mtu <$> p_mtu p)).
(** face-manager.cpp:287-311: the requested properties that are not valid *)
Definition bad_lf (p : params) (fc : mface) : bool := is_true (p_lf p) && negb (mf_is_local fc).
Definition bad_persist (p : params) (fc : mface) : bool := match p_persist p with Some x => negb (can_change x fc) | None => false end.
Definition bad_mtu (p : params) (fc : mface) : bool := match p_mtu p with Some m => negb (can_override (clamp_mtu m) fc) | None => false end.
Definition bad_body (p : params) (fc : mface) : body :=
  Body None None None (if bad_persist p fc then p_persist p else None) None None (if bad_mtu p fc then p_mtu p else None)
    (if bad_lf p fc then p_lf p else None) None None.
(** face-manager.cpp:266-329 updateFace; [tag] is the face that the command came from *)
Definition update_face (now : Z) (tag : option N) (p : params) (s : fm) : option (fm * response) :=
  match (if (p_face p =? 0)%N then tag else Some (p_face p)) with
  | None => Some (s, Response 404 None)
  | Some id =>
      match fm_faces s !! id with
      | None => Some (s, Response 404 None)
      | Some fc =>
          if bad_lf p fc || bad_persist p fc || bad_mtu p fc then Some (s, Response 409 (Some (bad_body p fc)))
          else
            match match p_persist p with Some x => set_persistency now x fc | None => Some fc end with
            | None => None
            | Some fc1 =>
                let fc2 := set_svc (update_options p (mf_is_local fc1) <$> mf_svc fc1) fc1 in
                Some (put_face id fc2 s, Response 200 (Some (update_body id fc2)))
            end
      end
  end.
(** face-manager.cpp:331-341 destroyFace *)
Definition destroy_face (p : params) (s : fm) : fm * response :=
  (match fm_faces s !! p_face p with Some fc => put_face (p_face p) (close fc) s | None => s end,
   Response 200 (Some (Body (Some (p_face p)) None None None None None None None None None))).

(** transport.cpp:174-216 setState of a face in the table, with what is connected to the signal: face-table.cpp:86, 93-111 and
    face-manager.cpp:517-537.  None: it throws. *)
Definition change_state (id : N) (st : tstate) (s : fm) : option fm :=
  match fm_faces s !! id with
  | None => None
  | Some fc =>
      if decide (mf_state fc = st) then Some s
      else if may_become (mf_state fc) st then
        let fc' := set_state st fc in
        match st with
        | Up => Some (notify EUp id fc' (put_face id fc' s))
        | Down => Some (notify EDown id fc' (put_face id fc' s))
        | Closed => let s' := notify EDestroyed id fc' s in Some (Fm (delete id (fm_faces s')) (fm_last s') (fm_notes s'))
        | _ => Some (put_face id fc' s)
        end
      else None
  end.

(** tcp-transport.cpp:145-167 handleReconnect, when the connection of a TCP face was established again: from which local address *)
Definition reconnected (id : N) (local : uri) (s : fm) : option fm :=
  match fm_faces s !! id with
  | None => None
  | Some fc =>
      match mf_kind fc, mf_state fc with
      | KTcp, (Closing | Failed | Closed) => Some s
      | KTcp, _ => change_state id Up (put_face id (set_local local fc) s)
      | _, _ => None
      end
  end.
(** ethernet-transport.cpp:65-68: the MTU of the network interface changes; these are not TCP faces *)
Definition change_mtu (id : N) (m : N) (s : fm) : option fm :=
  match fm_faces s !! id with
  | None => None
  | Some fc => match mf_kind fc with KTcp => None | _ => Some (put_face id (set_tmtu (Z.of_N m) fc) s) end
  end.

(** face-manager.cpp:378-411 makeFaceStatus; the period is in milliseconds, duration_cast truncates *)
Record status := Status {
  st_props : properties; st_expires : option Z; st_interval : option Z; st_threshold : option N; st_mtu : option N; st_counters : list N;
}.
Definition face_status (now : Z) (id : N) (fc : mface) : status :=
  Status (properties_of id fc) ((fun e => Z.max 0 (Z.quot (e - now) 1000000)) <$> mf_expires fc) (o_interval <$> mf_svc fc) (o_threshold <$> mf_svc fc) (shown_mtu fc) (mf_counters fc).
(** FaceQueryFilter *)
Record filter := Filter {
  f_face : option N; f_scheme : option string; f_remote : option string; f_local : option string; f_is_local : option bool; f_persist : option persistency; f_link : option link_type;
}.
Definition no_filter : filter := Filter None None None None None None None.
Definition fails {A} `{EqDecision A} (f : option A) (x : A) : bool := match f with Some y => negb (bool_decide (y = x)) | None => false end.
(** face-manager.cpp:438-481 matchFilter *)
Definition match_filter (f : filter) (id : N) (fc : mface) : bool :=
  if fails (f_face f) id then false
  else if fails (f_scheme f) (u_scheme (mf_remote fc)) && fails (f_scheme f) (u_scheme (mf_local fc)) then false
  else if fails (f_remote f) (u_text (mf_remote fc)) then false
  else if fails (f_local f) (u_text (mf_local fc)) then false
  else if fails (f_is_local f) (mf_is_local fc) then false
  else if fails (f_persist f) (mf_persist fc) then false
  else negb (fails (f_link f) (mf_link fc)).
(** face-manager.cpp:483-505 queryFaces, of a filter that was decoded; the order of rows is that of identifiers, here some order *)
Definition query_faces (now : Z) (f : filter) (s : fm) : list status :=
  omap (fun x => if match_filter f (fst x) (snd x) then Some (face_status now (fst x) (snd x)) else None) (map_to_list (fm_faces s)).
(** face-manager.cpp:413-422 listFaces *)
Definition list_faces (now : Z) (s : fm) : list status :=
  map (fun x => face_status now (fst x) (snd x)) (map_to_list (fm_faces s)).

(** what happens to the face table: faces made by factories or channels, commands, and changes of state *)
Inductive fm_event :=
| EvAdd (fc : mface)
| EvReserved (fc : mface) (id : N)
| EvCreate (p : params) (m : made)
| EvUpdate (now : Z) (tag : option N) (p : params)
| EvDestroy (p : params)
| EvState (id : N) (st : tstate)
| EvReconnected (id : N) (local : uri)
| EvMtu (id : N) (m : N).
Definition fm_step (s : fm) (e : fm_event) : option fm :=
  match e with
  | EvAdd fc => fst <$> add_face fc s
  | EvReserved fc id => add_reserved fc id s
  | EvCreate p m => fst <$> create_done p m s
  | EvUpdate now tag p => fst <$> update_face now tag p s
  | EvDestroy p => Some (fst (destroy_face p s))
  | EvState id st => change_state id st s
  | EvReconnected id local => reconnected id local s
  | EvMtu id m => change_mtu id m s
  end.
Fixpoint fm_run (s : fm) (l : list fm_event) : option fm :=
  match l with
  | [] => Some s
  | e :: l' => match fm_step s e with Some s' => fm_run s' l' | None => None end
  end.
(** face-table.cpp:37-40 *)
Definition fm_new : fm := Fm ∅ 255 [].
