(** What the access strategy is to do. *)
From stdpp Require Import gmap.
From Verif Require Import Lib Name_Model Packet_Model Tab_Model Tab_Spec Tab_At Tab_Sc Fw_Model Fw_Spec St_Spec.

(** [v] is the item [id] of some strategy info *)
Definition item (id : N) (v : list Z) (si : sinfo) : Prop :=
  exists si1 si2, si = si1 ++ (id, v) :: si2 /\ Forall (fun x => fst x <> id) si1.
Definition no_item (id : N) (si : sinfo) : Prop := Forall (fun x => fst x <> id) si.
(** the items other than [id] are the same *)
Definition rest_kept (id : N) (si si' : sinfo) : Prop := forall id' v, id' <> id -> (id', v) ∈ si' <-> (id', v) ∈ si.

(** the same strategy choice governs two names *)
Definition same_choice (s : fw) (n m : name) : Prop :=
  exists p inst, governs (fun x => sc_at (fw_t s) x) n p inst /\ governs (fun x => sc_at (fw_t s) x) m p inst.
(** for names like [n], face [g] is known to have answered last, with these round-trip times; it is the longest
    prefix with measurements that counts *)
Definition remembers (s : fw) (n : name) (g : N) (samples : list Z) : Prop :=
  exists p m z, longest_defined (fun x => meas_at (fw_t s) x) n p /\ meas_at (fw_t s) p = Some m /\ same_choice s n p /\
    item 1011 (z :: samples) (me_info m) /\ g = Z.to_N z.
(** an Interest named [n] from face [f] may be sent to face [g]; it never goes back, not even on an ad hoc link *)
Definition may_pass (s : fw) (f : N) (n : name) (g : N) : Prop := g <> f /\ scope_ok (fw_faces s) f n g.
(** [j] can leave by face [g]: its hop limit is not used up, or the face is local *)
Definition leaves (s : fw) (j : interest) (g : N) : Prop := i_hop j = Some 0%N -> local_face s g.
(** [tx] is the Interest [j] sent, once each, to those of the nexthops [l] that satisfy [P] *)
Definition sent_to_all (s : fw) (j : interest) (l : list nexthop) (P : N -> Prop) (tx : list io) : Prop :=
  NoDup tx /\ forall x, x ∈ tx <-> exists h, h ∈ l /\ x = Tx_interest (nh_face h) j /\ P (nh_face h) /\ leaves s j (nh_face h).
(** at time [t] the Interest of entry [k] that came from [f] and was sent to [g] times out *)
Definition armed (s : fw) (k : pit_key) (t : Z) (f g : N) : Prop := item 1010 [t; Z.of_N f; Z.of_N g] (info_of s k).
Definition disarmed (s : fw) (k : pit_key) : Prop := no_item 1010 (info_of s k).

(** the name the measurements for Data named [d] are kept under, when it satisfies an Interest named [n]: its parent, or
    itself if the parent is under another strategy choice; both cut at 32 components *)
Definition kept_under (s : fw) (n d m : name) : Prop :=
  let own x := same_choice s n (take 32 x) in
  (exists p c, d = p ++ [c] /\ own p /\ m = take 32 p) \/
  ((forall p c, d = p ++ [c] -> ~ own p) /\ own d /\ m = take 32 d).
(** the measurements [me] for a name are updated, at time [t], to [me']: face [f] has answered after [rtt] *)
Definition noted (t : Z) (f : N) (rtt : Z) (fi samples : list Z) (me me' : option meas_entry) : Prop :=
  exists m', me' = Some m' /\
    me_expiry m' = Z.max (match me with Some m => me_expiry m | None => t + 4000000000 end)%Z (t + 8000000000)%Z /\
    let si := match me with Some m => me_info m | None => [] end in
    item 1011 (Z.of_N f :: samples) (me_info m') /\ rest_kept 1011 si (me_info m') /\
    (forall z l, item 1011 (z :: l) si -> Z.to_N z = f -> samples = l ++ [rtt]) /\
    ((forall z l, item 1011 (z :: l) si -> Z.to_N z <> f) -> samples = fi ++ [rtt]).
