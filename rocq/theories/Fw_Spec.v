(** Specification of the forwarder: histories, and what its properties talk about *)
From stdpp Require Import gmap.
From Verif Require Import Lib Name_Model Packet_Model Tree_Model Tab_Model Tab_Spec Fw_Model.
From Verif Require Cs_Model Cs_Spec Dnl_Model.

(** names under /localhost and /localhop *)
Definition under (scope : list N) (n : name) : Prop := exists m, n = (8%N, scope) :: m.
Definition ascii_localhost : list N := [108; 111; 99; 97; 108; 104; 111; 115; 116]%N.
Definition ascii_localhop : list N := [108; 111; 99; 97; 108; 104; 111; 112]%N.
Definition localhost (n : name) : Prop := under ascii_localhost n.
Definition localhop (n : name) : Prop := under ascii_localhop n.

(** the face with identifier [f] exists and is local, not local, point-to-point, ad hoc *)
Definition local_face (s : fw) (f : N) : Prop := exists fc, fw_faces s !! f = Some fc /\ fc_local fc = true.
Definition nonlocal_face (s : fw) (f : N) : Prop := exists fc, fw_faces s !! f = Some fc /\ fc_local fc = false.
Definition p2p_face (s : fw) (f : N) : Prop := exists fc, fw_faces s !! f = Some fc /\ fc_link fc = LINK_P2P.
Definition adhoc_face (s : fw) (f : N) : Prop := exists fc, fw_faces s !! f = Some fc /\ fc_link fc = LINK_AD_HOC.
Definition face_exists (s : fw) (f : N) : Prop := is_Some (fw_faces s !! f).

(** PIT entries and their records *)
Definition in_record_of (s : fw) (k : pit_key) (f : N) (r : in_record) : Prop :=
  exists e, pit_at (fw_t s) k = Some e /\ r ∈ pe_in e /\ fr_face (ir_rec r) = f.
Definition out_record_of (s : fw) (k : pit_key) (f : N) (r : out_record) : Prop :=
  exists e, pit_at (fw_t s) k = Some e /\ r ∈ pe_out e /\ fr_face (or_rec r) = f.

(** nothing but the log and the counters changed *)
Definition same_but_log (s s' : fw) : Prop :=
  fw_t s' = fw_t s /\ fw_cs s' = fw_cs s /\ fw_dnl s' = fw_dnl s /\ fw_faces s' = fw_faces s /\
  fw_last s' = fw_last s /\ fw_regions s' = fw_regions s /\ fw_unsol s' = fw_unsol s /\
  fw_hop s' = fw_hop s /\ fw_priv s' = fw_priv s.

(** what an event puts in the log, newest first *)
Definition added (s s' : fw) (l : list io) : Prop := fw_log s' = l ++ fw_log s.

(** * Accounting for pending Interests
    [pending f k]: face [f] sent an Interest with key [k] that has not been answered.  Receiving
    an Interest makes it pending; Data may be sent to [f] only for a pending Interest it
    satisfies, which is then no longer pending; a Nack likewise, except that a
    Nack of reason Duplicate answers a loop and may leave it pending. *)
Definition pending_set := N -> pit_key -> Prop.
Definition satisfies (k : pit_key) (d : data) : Prop :=
  matches_data (Interest (pk_name k) (pk_cbp k) (pk_mbf k) 0 0 None [] None None false) d = true.
Inductive accounted : list io -> pending_set -> Prop :=
| acc_nil : accounted [] (fun _ _ => False)
| acc_rx_interest f i l P : accounted l P ->
    accounted (Rx_interest f i :: l) (fun g k => P g k \/ (g = f /\ k = key_of i))
| acc_rx_data f d l P : accounted l P -> accounted (Rx_data f d :: l) P
| acc_rx_nack f i r l P : accounted l P -> accounted (Rx_nack f i r :: l) P
| acc_tx_interest f i l P : accounted l P -> accounted (Tx_interest f i :: l) P
| acc_tx_data f d tok k l P : accounted l P -> P f k -> satisfies k d ->
    accounted (Tx_data f d tok :: l) (fun g k' => P g k' /\ ~ (g = f /\ k' = k))
| acc_tx_nack f i r l P : accounted l P -> P f (key_of i) ->
    accounted (Tx_nack f i r :: l) (fun g k' => P g k' /\ ~ (g = f /\ k' = key_of i))
| acc_tx_dup f i l P : accounted l P -> P f (key_of i) -> accounted (Tx_nack f i NACK_DUPLICATE :: l) P.

(** * Where forwarded Interests come from
    [one_hop i j]: [j] is [i] one hop on: it asks for the same Data, and carries one hop less; an
    Interest without hop limit may have been given one, which is not 0 *)
Definition one_hop (i j : interest) : Prop :=
  key_of j = key_of i /\
  match i_hop i with
  | Some h => exists h', h = (h' + 1)%N /\ i_hop j = Some h'
  | None => i_hop j <> Some 0%N
  end.
(** every Interest sent was received before *)
Definition sourced (log : list io) : Prop :=
  forall l1 f j l2, log = l1 ++ Tx_interest f j :: l2 -> exists g i, Rx_interest g i ∈ l2 /\ one_hop i j.

(** * Counters: each counts packets of one kind, modulo 2^64 *)
Definition count_io (p : io -> bool) (l : list io) : N := N.of_nat (length (List.filter p l)).
Definition counted (l : list io) (c : counters) : Prop :=
  c_in_interests c = (count_io (fun x => match x with Rx_interest _ _ => true | _ => false end) l mod 2 ^ 64)%N /\
  c_out_interests c = (count_io (fun x => match x with Tx_interest _ _ => true | _ => false end) l mod 2 ^ 64)%N /\
  c_in_data c = (count_io (fun x => match x with Rx_data _ _ => true | _ => false end) l mod 2 ^ 64)%N /\
  c_out_data c = (count_io (fun x => match x with Tx_data _ _ _ => true | _ => false end) l mod 2 ^ 64)%N /\
  c_in_nacks c = (count_io (fun x => match x with Rx_nack _ _ _ => true | _ => false end) l mod 2 ^ 64)%N /\
  c_out_nacks c = (count_io (fun x => match x with Tx_nack _ _ _ => true | _ => false end) l mod 2 ^ 64)%N.

(** * Contracts of strategies *)

(** the calls through which a strategy trigger acts on the forwarder *)
Inductive act :=
| AInterest (src : isrc) (nonce : option N) (nondisc : bool) (f : N)
| AData (d : data) (f : N)
| ANack (reason f : N)
| ATimer (ms : Z)
| AOther.                      (* strategy info, measurements, members of the strategy *)

(** [obeys R K s p]: every call of [p] is allowed by [K] (calls [AOther] always are), which may depend on the state the
    trigger has last read; [R] says what is known of the states it reads, [s] is the
    state it has last read so far *)
Inductive obeys (R : fw -> Prop) (K : fw -> act -> Prop) : fw -> sprog -> Prop :=
| ob_done s : obeys R K s PDone
| ob_fail s : obeys R K s PFail
| ob_read s q : (forall s', R s' -> obeys R K s' (q s')) -> obeys R K s (PRead q)
| ob_rand s q : (forall x, obeys R K s (q x)) -> obeys R K s (PRand q)
| ob_interest s src nonce nd f q : K s (AInterest src nonce nd f) -> (forall b, obeys R K s (q b)) -> obeys R K s (PInterest src nonce nd f q)
| ob_data s d f q : K s (AData d f) -> obeys R K s q -> obeys R K s (PDataToAll d f q)
| ob_nack s r f q : K s (ANack r f) -> obeys R K s q -> obeys R K s (PNack r f q)
| ob_timer s ms q : K s (ATimer ms) -> obeys R K s q -> obeys R K s (PTimer ms q)
| ob_info s si q : obeys R K s q -> obeys R K s (PInfo si q)
| ob_in_info s f si q : obeys R K s q -> obeys R K s (PInInfo f si q)
| ob_out_info s f si q : obeys R K s q -> obeys R K s (POutInfo f si q)
| ob_meas_get s n q : obeys R K s q -> obeys R K s (PMeasGet n q)
| ob_meas_extend s n l q : obeys R K s q -> obeys R K s (PMeasExtend n l q)
| ob_meas_info s n si q : obeys R K s q -> obeys R K s (PMeasInfo n si q)
| ob_priv s p q : obeys R K s q -> obeys R K s (PPriv p q).

(** a trigger that sends nothing *)
Definition quiet (p : sprog) : Prop :=
  forall s, obeys (fun _ => True) (fun _ a => match a with ATimer _ | AOther => True | _ => False end) s p.
(** a trigger that does not touch the expiry timer, but to let the PIT entry expire at once, if
    [rej] allows that *)
Definition rejects_only (rej : Prop) (p : sprog) : Prop :=
  forall s, obeys (fun _ => True) (fun _ a => match a with ATimer ms => rej /\ ms = 0%Z | _ => True end) s p.
(** a trigger that sends no Nack *)
Definition no_nack (p : sprog) : Prop :=
  forall s, obeys (fun _ => True) (fun _ a => match a with ANack _ _ => False | _ => True end) s p.
(** a trigger that sends Interests only to faces for which [allowed] holds in the state it has
    last read; it sees the faces [F], and in-records that belong to their entries *)
Definition sees (F : gmap N face) (s : fw) : Prop :=
  fw_faces s = F /\ forall k f r, in_record_of s k f r -> key_of (ir_interest r) = k.
Definition sends (allowed : fw -> N -> Prop) (F : gmap N face) (p : sprog) : Prop :=
  forall s, fw_faces s = F -> obeys (sees F) (fun s' a => match a with AInterest _ _ _ f => allowed s' f | _ => True end) s p.

(** a trigger that returns no other Data than [d], as coming from face [f] *)
Definition returns_only (d : data) (f : N) (p : sprog) : Prop :=
  forall s, obeys (fun _ => True) (fun _ a => match a with AData d' f' => d' = d /\ f' = f | _ => True end) s p.

(** an Interest with name [n] that came from face [f] may go to face [g]: under /localhost
    only to local faces, under /localhop only from or to a local face *)
Definition scope_ok (F : gmap N face) (f : N) (n : name) (g : N) : Prop :=
  let is_local x := exists fc, F !! x = Some fc /\ fc_local fc = true in
  (localhost n -> is_local g) /\ (localhop n -> is_local f \/ is_local g).
(** a strategy that respects scope: an Interest it forwards when it is received may go where it
    sends it; when it sends one later, some downstream in the PIT entry may send there *)
Definition downstream_ok (F : gmap N face) (k : pit_key) (s : fw) (g : N) : Prop :=
  exists f r, in_record_of s k f r /\ scope_ok F f (pk_name k) g.
Record scoped (st : strategy) : Prop := {
  scoped_interest : forall F i f k, sends (fun _ g => scope_ok F f (i_name i) g) F (st_interest st i f k);
  scoped_before : forall F d f k, sends (downstream_ok F k) F (st_before st d f k);
  scoped_data : forall F p d f k, st_data st = Some p -> sends (downstream_ok F k) F (p d f k);
  scoped_nack : forall F i r f k, sends (downstream_ok F k) F (st_nack st i r f k);
  scoped_newhop : forall F nh k, sends (downstream_ok F k) F (st_newhop st nh k);
  scoped_async : forall F arg k, sends (downstream_ok F k) F (st_async st arg k);
}.

(** * Requests
    [asks s ev f k j]: face [f] is waiting for Data for [k]: its Interest is [j] in an in-record,
    or is the one now received, one hop on *)
Definition asks (s : fw) (ev : event) (f : N) (k : pit_key) (j : interest) : Prop :=
  (exists r, in_record_of s k f r /\ ir_interest r = j) \/
  (exists i, ev = EvInterest f i /\ key_of i = k /\ one_hop i j /\ i_token j = i_token i).
(** face [f] is not waiting for Data for [k] *)
Definition not_waiting (s : fw) (f : N) (k : pit_key) : Prop := forall r, ~ in_record_of s k f r.

(** when Data [d] arrives on face [f], face [g] is due to be sent it: it is waiting for it and its
    Interest has not expired; it is not where the Data came from, unless on an ad hoc link; scope
    allows it *)
Definition due (s : fw) (f : N) (d : data) (g : N) : Prop :=
  (exists k r, in_record_of s k g r /\ satisfies k d /\ (now (fw_t s) < fr_expiry (ir_rec r))%Z) /\
  (g = f -> adhoc_face s g) /\ (localhost (d_name d) -> local_face s g).
(** a strategy that leaves returning Data to the default *)
Definition default_data (st : strategy) : Prop := st_data st = None /\ forall d f k, quiet (st_before st d f k).
(** the face a Data packet is sent to *)
Definition data_to (x : io) : option N := match x with Tx_data g _ _ => Some g | _ => None end.

(** the content store's answer to [i]: the canonically first of the packets that satisfy it *)
Definition cs_answers (s : fw) (i : interest) (d : data) : Prop :=
  exists e, e ∈ Cs_Model.cs_table (fw_cs s) /\ Cs_Model.e_data e = d /\ Cs_Spec.entry_satisfies (now (fw_t s)) i e /\
    forall e', e' ∈ Cs_Model.cs_table (fw_cs s) -> Cs_Spec.entry_satisfies (now (fw_t s)) i e' ->
      Cs_Spec.same_packet d (Cs_Model.e_data e') \/ Cs_Spec.data_before d (Cs_Model.e_data e').
(** the unsolicited Data policy lets packets from face [f] into the content store *)
Definition admits (s : fw) (f : N) : Prop :=
  match fw_unsol s with
  | DropAll => False
  | AdmitLocal => local_face s f
  | AdmitNetwork => nonlocal_face s f
  | AdmitAll => True
  end.
(** an Interest from face [f] whose nonce is recorded in the PIT entry with its key; a
    retransmission over a point-to-point link does not count *)
Definition looping (s : fw) (f : N) (i : interest) : Prop :=
  ((exists g r, in_record_of s (key_of i) g r /\ fr_nonce (ir_rec r) = i_nonce i) \/ (exists g r, out_record_of s (key_of i) g r /\ fr_nonce (or_rec r) = i_nonce i)) /\
  ~ (p2p_face s f /\ exists r, in_record_of s (key_of i) f r /\ fr_nonce (ir_rec r) = i_nonce i).

(** * Expiry timers *)
(** a strategy that leaves the expiry timer alone, but to reject an Interest if [rej] allows that *)
Record patient (rej : Prop) (st : strategy) : Prop := {
  patient_interest : forall i f k, rejects_only rej (st_interest st i f k);
  patient_before : forall d f k, rejects_only rej (st_before st d f k);
  patient_data : forall p d f k, st_data st = Some p -> rejects_only rej (p d f k);
  patient_nack : forall i r f k, rejects_only rej (st_nack st i r f k);
  patient_newhop : forall nh k, rejects_only rej (st_newhop st nh k);
  patient_async : forall arg k, rejects_only rej (st_async st arg k);
}.
(** the time at which Interest [i], received now, expires; lifetimes are cut at ten days *)
Definition MS : Z := 1000000.
Definition deadline (s : fw) (i : interest) : Z := (now (fw_t s) + Z.min (i_lifetime i) 864000000 * MS)%Z.
(** [t] is the latest of the deadlines of the Interest [i] that face [f] now sends and of those of
    the other faces that are waiting for the same Data *)
Definition last_deadline (s : fw) (f : N) (i : interest) (t : Z) : Prop :=
  (deadline s i <= t)%Z /\
  (forall g r, g <> f -> in_record_of s (key_of i) g r -> (fr_expiry (ir_rec r) <= t)%Z) /\
  (t = deadline s i \/ exists g r, g <> f /\ in_record_of s (key_of i) g r /\ t = fr_expiry (ir_rec r)).
(** no upstream but [f] may still answer: each has answered with a Nack, or its time has passed *)
Definition all_nacked (s : fw) (k : pit_key) (f : N) : Prop :=
  forall g r, g <> f -> out_record_of s k g r -> or_nack r <> None \/ (fr_expiry (or_rec r) < now (fw_t s))%Z.

(** the Interest, Data or Nack that arrives is for the PIT entry with key [k]: it is not dropped
    because of its hop limit, its scope or a loop; in the case of a Nack, it answers the Interest
    last sent on that link, and no other upstream may still answer *)
Definition takes_interest (make_entry : name -> N -> Dnl_Model.fingerprint) (s : fw) (ev : event) (k : pit_key) (f : N) (i : interest) : Prop :=
  ev = EvInterest f i /\ key_of i = k /\ i_hop i <> Some 0%N /\ (localhost (i_name i) -> local_face s f) /\
  Dnl_Model.dnl_has make_entry (fw_dnl s) (i_name i) (i_nonce i) = false /\ ~ looping s f i.
Definition takes_data (s : fw) (ev : event) (k : pit_key) : Prop :=
  exists f d, ev = EvData f d /\ satisfies k d /\ (localhost (d_name d) -> local_face s f).
Definition takes_nack (s : fw) (ev : event) (k : pit_key) : Prop :=
  exists f i r, ev = EvNack f i r /\ key_of i = k /\ p2p_face s f /\
    (exists o, out_record_of s k f o /\ fr_nonce (or_rec o) = i_nonce i) /\ all_nacked s k f.

(** a chain of Interests, each forwarded because of the one before it *)
Inductive hops : interest -> list interest -> Prop :=
| hops_nil i : hops i []
| hops_cons i j l : one_hop i j -> hops j l -> hops i (j :: l).

(** * Histories *)
Section history.
  Variable sort_nexthops : list nexthop -> list nexthop.
  Variable create_strategy : name -> create_result.
  Variable same_type : name -> name -> bool.
  Variable make_entry : name -> N -> Dnl_Model.fingerprint.
  Variable rand : nat -> nat.
  Variable face_order : list N -> list N.
  Variable strategies : name -> strategy.
  Notation step := (fw_step sort_nexthops create_strategy same_type make_entry rand face_order strategies).

  (** what is assumed of the parts that are not modelled *)
  Record world_ok : Prop := {
    wo_sort : sort_ok sort_nexthops;
    wo_type : forall s, same_type s s = true;
    wo_order : forall l, face_order l ≡ₚ l;
  }.

  (** events that can happen: packets arrive on existing faces and decode (lifetimes and
      freshness are not negative, names are well formed), timers fire when due, the root strategy
      is not unset, the clock does not go back *)
  Definition ev_ok (s : fw) (ev : event) : Prop :=
    match ev with
    | EvInterest f i => face_exists s f /\ (0 <= i_lifetime i)%Z /\ name_valid (i_name i)
    | EvData f d => face_exists s f /\ Cs_Spec.data_wf d /\ (0 <= d_fresh d)%Z
    | EvNack f i r => face_exists s f
    | EvPitTimer k => exists e t, pit_at (fw_t s) k = Some e /\ pe_timer e = Some t /\ (t <= now (fw_t s))%Z
    | EvStrategyUnset p => p <> []
    | EvFaceAddReserved _ id => id <> INVALID_FACEID
    | EvFaceRemove f => face_exists s f
    | EvCs (Cs_Model.OInsert _ _ _) | EvCs (Cs_Model.OFind _ _) => False
    | EvCs (Cs_Model.OTimer t e) => t = now (fw_t s)
    | EvCs (Cs_Model.OMgmtErase t p n) => t = now (fw_t s) /\ name_valid p
    | EvCs o => Cs_Spec.op_wf o
    | EvTick d => (0 <= d)%Z
    | _ => True
    end.

  Inductive fw_reachable : fw -> Prop :=
  | fw_reach_new def limit s : fw_new create_strategy def limit = Some s -> fw_reachable s
  | fw_reach_step s ev s' : fw_reachable s -> ev_ok s ev -> step s ev = Some s' -> fw_reachable s'.

  (** histories of events for which [P] holds *)
  Inductive fw_reachable_if (P : event -> Prop) : fw -> Prop :=
  | fw_if_new def limit s : fw_new create_strategy def limit = Some s -> fw_reachable_if P s
  | fw_if_step s ev s' : fw_reachable_if P s -> ev_ok s ev -> P ev -> step s ev = Some s' -> fw_reachable_if P s'.

  (** later in the same history *)
  Inductive fw_later (s : fw) : fw -> Prop :=
  | fw_later_refl : fw_later s s
  | fw_later_step s1 ev s2 : fw_later s s1 -> ev_ok s1 ev -> step s1 ev = Some s2 -> fw_later s s2.
End history.
