(** What the strategies are to do. *)
From stdpp Require Import gmap.
From Verif Require Import Lib Name_Model Name_Proof Packet_Model Nt_Model Nt_Spec Tree_Model Tab_Model Tab_Spec Tab_At Fw_Model Fw_Spec FwFace_Props St_Model.
From Verif Require Cs_Model Cs_Spec Dnl_Model.

(** * Retransmission suppression *)
(** m * 2^e < b *)
Definition value_below (m e b : Z) : Prop := if decide (0 <= e)%Z then (m * 2 ^ e < b)%Z else (m < b * 2 ^ (- e))%Z.
(** [v] is m * 2^e, or an integer next to it *)
Definition value_near (m e v : Z) : Prop :=
  if decide (0 <= e)%Z then v = (m * 2 ^ e)%Z else ((v - 1) * 2 ^ (- e) < m < (v + 1) * 2 ^ (- e))%Z.
(** no upstream may still answer at time [t]: each has answered with a Nack, or its time has passed *)
Definition idle (t : Z) (l : list out_record) : Prop := forall r, r ∈ l -> or_nack r <> None \/ (fr_expiry (or_rec r) < t)%Z.
(** the Interest was last sent at [t] *)
Definition last_sent (l : list out_record) (t : Z) : Prop :=
  (exists r, r ∈ l /\ fr_renewed (or_rec r) = t) /\ forall r, r ∈ l -> (fr_renewed (or_rec r) <= t)%Z.
(** the suppression interval in the strategy info of a PIT entry or out-record *)
Definition stored_interval (si : sinfo) (o : option Z) : Prop :=
  match o with
  | Some iv => exists si1 si2, si = si1 ++ (1020%N, [iv]) :: si2 /\ Forall (fun x => fst x <> 1020%N) si1
  | None => Forall (fun x => fst x <> 1020%N) si
  end.
(** the current interval: the stored one, or the initial one *)
Definition interval_now (c : retx_cfg) (si : sinfo) (iv : Z) : Prop :=
  stored_interval si (Some iv) \/ ((forall iv', ~ stored_interval si (Some iv')) /\ iv = rx_initial c).
(** nothing else in the strategy info has changed *)
Definition others_kept (si si' : sinfo) : Prop :=
  forall id v, id <> 1020%N -> (id, v) ∈ si' <-> (id, v) ∈ si.

(** * Nexthops *)
(** an Interest named [n] that came from face [f] may be sent to face [g] *)
Definition may_go (s : fw) (f : N) (n : name) (g : N) : Prop :=
  face_exists s g /\ (g = f -> adhoc_face s g) /\ scope_ok (fw_faces s) f n g.
(** [h] is a nexthop of [l] with [P] of least cost *)
Definition cheapest (P : nexthop -> Prop) (l : list nexthop) (h : nexthop) : Prop :=
  h ∈ l /\ P h /\ forall h', h' ∈ l -> P h' -> (nh_cost h <= nh_cost h')%N.
(** the nexthops for an Interest named [n] with forwarding hint [hint] *)
Definition nexthops_for (s : fw) (hint : list name) (n : name) (l : list nexthop) : Prop :=
  match hint with
  | [] => route_for s n l \/ (no_route s n /\ l = [])
  | _ => (exists h1 d h2, hint = h1 ++ d :: h2 /\ Forall (no_route s) h1 /\ route_for s d l) \/ (Forall (no_route s) hint /\ l = [])
  end.
(** the forwarding hint that is followed for [i]: the one of the Interest that created the PIT
    entry; if [i] does, its own one, unless it has reached the producer region *)
Definition hint_for (s : fw) (i : interest) (hint : list name) : Prop :=
  match pit_at (fw_t s) (key_of i) with
  | Some e => hint = i_hint (pe_interest e)
  | None => (in_region s (i_hint i) /\ hint = []) \/ (~ in_region s (i_hint i) /\ hint = i_hint i)
  end.
(** the upstreams the Interest was sent to *)
Definition outs_of (s : fw) (k : pit_key) : list out_record := match pit_at (fw_t s) k with Some e => pe_out e | None => [] end.
Definition info_of (s : fw) (k : pit_key) : sinfo := match pit_at (fw_t s) k with Some e => pe_info e | None => [] end.
(** face [g] has no unexpired out-record *)
Definition unused (s : fw) (k : pit_key) (g : N) : Prop := forall r, out_record_of s k g r -> (fr_expiry (or_rec r) <= now (fw_t s))%Z.
(** the Interest was sent to [g] less than the suppression interval ago *)
Definition suppressed (c : retx_cfg) (s : fw) (k : pit_key) (g : N) : Prop :=
  exists r iv, out_record_of s k g r /\ interval_now c (fr_info (or_rec r)) iv /\ (now (fw_t s) - fr_renewed (or_rec r) < iv * 1000000)%Z.
(** the content store is not asked, or has no answer *)
Definition not_cached (s : fw) (i : interest) : Prop := (exists f r, in_record_of s (key_of i) f r) \/ forall d, ~ cs_answers s i d.
(** the Interest [j] goes to face [g]: nothing is sent if its hop limit is used up, but to a local face *)
Definition sent (s : fw) (g : N) (j : interest) (l : list io) : Prop :=
  if decide (i_hop j = Some 0%N) then (local_face s g /\ l = [Tx_interest g j]) \/ (nonlocal_face s g /\ l = []) else l = [Tx_interest g j].

(** * Nacks *)
(** the reasons that are known: Congestion, Duplicate, NoRoute, from least to most severe *)
Definition known (r : N) : Prop := r = 50%N \/ r = 100%N \/ r = 150%N.
Definition least_severe (P : N -> Prop) (r : N) : Prop :=
  (P r /\ known r /\ forall r', P r' -> known r' -> (r <= r')%N) \/ (r = 0%N /\ forall r', P r' -> ~ known r').
(** after a Nack from [f]: the upstream [g] has not answered the Interest with a Nack *)
Definition unanswered (s : fw) (k : pit_key) (f g : N) : Prop := g <> f /\ exists r, out_record_of s k g r /\ or_nack r = None.
(** an upstream has answered with reason [x]; [f] has just answered with [reason] *)
Definition answered (s : fw) (k : pit_key) (f reason x : N) : Prop :=
  x = reason \/ exists g r, g <> f /\ out_record_of s k g r /\ or_nack r = Some x.
