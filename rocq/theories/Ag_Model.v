(** Automatic registration of prefixes: tools/nfd-autoreg.cpp. The command line is its options, already parsed; the answers to the registrations are only printed and are not modelled. *)
From Coq Require Import String.
From stdpp Require Import list.
From Verif Require Import Lib Net_Model.
Open Scope list_scope.

Section autoreg.
Context {Name : Type}.
(** :243-248, 283-287 *)
Record options := Options { o_prefixes : list Name; o_all_prefixes : list Name; o_cost : N; o_white : list network; o_black : list network }.
(** a face as a notification or the dataset tells it; [f_addr]: None if the host is no address *)
Record face := Face { f_id : N; f_scheme : string; f_addr : option addr; f_local : bool; f_on_demand : bool }.
(** :103-116: rib/register with the origin autoreg and no expiration *)
Record registration := Registration { r_prefix : Name; r_face : N; r_cost : N }.
(** :70-77 hasAllowedSchema *)
Definition has_allowed_scheme (s : string) : bool := String.eqb s "udp4" || String.eqb s "tcp4" || String.eqb s "udp6" || String.eqb s "tcp6".
(** :82-98 isBlacklisted, isWhitelisted *)
Definition listed (l : list network) (a : addr) : bool := existsb (fun n => does_contain n a) l.
(** boost::asio::ip::address::is_multicast *)
Definition is_multicast (a : addr) : bool := match a with V4 b0 _ _ _ => (b0 / 16 =? 14)%N | V6 l _ => match l with b0 :: _ => (b0 =? 255)%N | [] => false end end.
Definition register_for (o : options) (id : N) (ps : list Name) : list registration := map (fun p => Registration p id (o_cost o)) ps.
(** :118-137 registerPrefixesIfNeeded; the address is 0.0.0.0 if the host is none, the error is ignored *)
Definition register_if_needed (o : options) (f : face) : list registration :=
  if has_allowed_scheme (f_scheme f) then
    let a := default (V4 0 0 0 0) (f_addr f) in
    if is_multicast a then []
    else register_for o (f_id f) (o_all_prefixes o) ++
         (if f_on_demand f && negb (listed (o_black o) a) && listed (o_white o) a then register_for o (f_id f) (o_prefixes o) else [])
  else [].
Inductive event :=
| ENotification (created : bool) (f : face)   (* :139-153 onNotification *)
| EDataset (l : list face).                   (* :188-199 startFetchingFaceStatusDataset *)
Definition on_event (o : options) (e : event) : list registration :=
  match e with
  | ENotification created f => if created && negb (f_local f) then register_if_needed o f else []
  | EDataset l => flat_map (register_if_needed o) l
  end.
Definition registrations (o : options) (l : list event) : list registration := flat_map (on_event o) l.
(** :250-266: None: exit code 2 *)
Definition prepare (o : options) : option options :=
  match o_prefixes o, o_all_prefixes o with
  | [], [] => None
  | _, _ => Some (match o_white o with [] => Options (o_prefixes o) (o_all_prefixes o) (o_cost o) [max_range_v4; max_range_v6] (o_black o) | _ => o end)
  end.
End autoreg.
Arguments options : clear implicits. Arguments registration : clear implicits.
