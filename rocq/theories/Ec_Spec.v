(** What an Ethernet channel is to do. *)
From stdpp Require Import gmap.
From Verif Require Import Lib Fm_Model Lp_Model Tp_Model Tp_Spec Et_Model Et_Spec Ec_Model.

(** frame [f] brings packet [b] from [p] to the interface with address [local] *)
Definition carried (local p : mac) (f b : list N) : Prop :=
  exists payload r, is_frame f local p NDN_TYPE payload /\ 46 <= length payload /\ payload = b ++ r /\ is_tlv b.
Definition carries (local p : mac) (f : list N) : option (list N) :=
  if (60 <=? length f)%nat && (f_type 0 f =? NDN_TYPE)%N && bool_decide (f_src f = p) && bool_decide (f_dst f = local) then fst <$> from_buffer (drop 14 f) else None.
(** what the face for [p] passed on, and what waits for it *)
Definition face_of (c : ec) (p : mac) : option eface := match c_peers c !! p with Some id => c_faces c !! id | None => None end.
Definition passed_on (c : ec) (p : mac) : list (list N) := match face_of c p with Some x => ef_got x | None => [] end.
Definition waits_at_face (c : ec) (p : mac) : list (list N) := match face_of c p with Some x => ef_q x | None => [] end.

(** every map entry leads to an open face with that address, and every face is in the map *)
Definition tidy (c : ec) : Prop :=
  (forall p id, c_peers c !! p = Some id -> exists x, c_faces c !! id = Some x /\ ef_remote x = p) /\
  (forall id x, c_faces c !! id = Some x -> c_peers c !! ef_remote x = Some id) /\
  (forall id, is_Some (c_faces c !! id) -> (id < c_next c)%N).
(** any history; nothing that was thrown left the handler *)
Inductive ec_any (c0 : ec) : ec -> Prop :=
| ea_nil : ec_any c0 c0
| ea_snoc c e c' : ec_any c0 c -> ec_step c e = Some c' -> ec_any c0 c'.
(** nothing fails, nothing is closed, and no frame arrives while a face is being made *)
Definition quiet (e : ec_event) : Prop :=
  match e with
  | CListen os ok => os = true /\ ok = true
  | CConnect _ _ os gap ok => os = None /\ gap = [] /\ ok = true
  | CRead os gap ok => os = None /\ gap = [] /\ ok = true
  | CArrive _ | CReadFace _ => True
  | _ => False
  end.
(** a channel that listens, after quiet events; the frames that arrived *)
Inductive ec_quiet (c0 : ec) : list (list N) -> ec -> Prop :=
| eq_nil : ec_quiet c0 [] c0
| eq_snoc fs c e c' : ec_quiet c0 fs c -> quiet e -> ec_step c e = Some c' -> ec_quiet c0 (match e with CArrive f => fs ++ [capture f] | _ => fs end) c'.
Definition ec_start (local : mac) (debug drain : bool) : ec := fst (listen true true (ec_new local debug drain)).
(** events one after the other; None: an exception left a handler *)
Definition ec_run (c : ec) (es : list ec_event) : option ec := foldl (fun o e => match o with Some c => ec_step c e | None => None end) (Some c) es.
(** libpcap takes every filter, and the channel could start to listen *)
Definition smooth (e : ec_event) : Prop :=
  match e with
  | CListen os ok => os = true /\ ok = true
  | CConnect _ _ _ _ ok | CRead _ _ ok | CClosed _ ok => ok = true
  | _ => True
  end.
Inductive ec_smooth (c0 : ec) : ec -> Prop :=
| es_nil : ec_smooth c0 c0
| es_snoc c e c' : ec_smooth c0 c -> smooth e -> ec_step c e = Some c' -> ec_smooth c0 c'.
