(** The ASF strategy: daemon/fw/{asf-strategy,asf-probing-module,asf-measurements}.{hpp,cpp}.
    First what it knows about faces (the measurements), then the ranking, then the strategy as a
    program over the protected interface of class Strategy. *)
From stdpp Require Import gmap.
From Verif Require Import Lib Name_Model Packet_Model Nt_Model Tree_Model Tab_Model Fw_Model St_Model.

(** asf-measurements.hpp:101-102 *)
Definition RTT_NO_MEASUREMENT : Z := -1.
Definition RTT_TIMEOUT : Z := -2.
(** measurements.hpp getInitialLifetime *)
Definition INITIAL_LIFETIME : Z := 4000000000.
(** name-tree.hpp getMaxDepth *)
Definition DEPTH : nat := 32.

(** * What is known about faces *)
Section meas.
  (** ndn::util::RttEstimator: its state, addMeasurement, getSmoothedRtt, getEstimatedRto *)
  Variable est : Type.
  Variable est_new : est.
  Variable est_add : est -> Z -> est.
  Variable est_rto : est -> Z.
  (** MeasurementsAccessor::filter, measurements-accessor.cpp:44-56: this strategy instance is the
      effective one for the name.  It does not change in a run of this model: if it does,
      StrategyChoice clears the strategy info (Tab_Model) *)
  Variable mine : name -> bool.
  (** m_nMaxTimeouts; the lifetime of measurements and the probing interval, in nanoseconds *)
  Variable max_timeouts : nat.
  Variable life : Z.
  Variable probing_interval : Z.

  (** asf-measurements.hpp:41-117 FaceInfo.  A timer is when it fires and what Interest it is for *)
  Record finfo := FInfo {
    fi_est : est;
    fi_rtt : Z;
    fi_last : name;
    fi_n : nat;
    fi_life : Z;
    fi_timer : option (Z * name);
  }.
  (** asf-measurements.hpp:125-187 NamespaceInfo, with the expiry of the measurements entry it is in *)
  Record ninfo := NInfo {
    ni_faces : gmap N finfo;
    ni_due : bool;
    ni_first : bool;
    ni_expiry : Z;
  }.
  (** every measurements entry is in [as_ns]; [as_probes] are the timers of scheduleProbe *)
  Record asf := Asf { as_now : Z; as_ns : gmap name ninfo; as_probes : list (Z * name) }.
  Definition asf_init : asf := Asf 0 ∅ [].
  Definition set_ns (m : name) (x : ninfo) (a : asf) : asf := Asf (as_now a) (<[m := x]> (as_ns a)) (as_probes a).
  Definition set_faces (fs : gmap N finfo) (x : ninfo) : ninfo := NInfo fs (ni_due x) (ni_first x) (ni_expiry x).

  (** measurements.cpp:39-62 Measurements::get *)
  Definition meas_of (n : name) (a : asf) : asf :=
    match as_ns a !! n with
    | Some _ => a
    | None => set_ns n (NInfo ∅ false false (as_now a + INITIAL_LIFETIME)) a
    end.
  (** measurements.cpp:117-131 Measurements::extendLifetime, asf-measurements.cpp:121-125 *)
  Definition extend_ns (m : name) (a : asf) : asf :=
    match as_ns a !! m with
    | Some x => set_ns m (NInfo (ni_faces x) (ni_due x) (ni_first x) (Z.max (ni_expiry x) (as_now a + life))) a
    | None => a
    end.
  (** asf-measurements.cpp:97-119 getOrCreateNamespaceInfo: the loop.  None is the assertion
      that there is a name under this strategy *)
  Fixpoint first_mine (l : list name) (a : asf) : option (asf * name) :=
    match l with
    | [] => None
    | n :: l' => let a1 := meas_of n a in if mine n then Some (a1, n) else first_mine l' a1
    end.
  (** the names tried: the prefix of the FIB entry, then the longer prefixes of the Interest name *)
  Definition candidates (p n : name) : list name :=
    p :: map (fun len => take (Nat.min len DEPTH) n) (seq (S (length p)) (length n - length p)).
  Definition get_or_create_ns (p n : name) (a : asf) : option (asf * name) :=
    match first_mine (candidates p n) a with
    | Some (a1, m) => Some (extend_ns m a1, m)
    | None => None
    end.
  (** measurements.cpp:92-110 findLongestPrefixMatch: the longest prefix with an entry *)
  Fixpoint longest_of (l : nat) (n : name) (a : asf) : option name :=
    match as_ns a !! take l n with
    | Some _ => Some (take l n)
    | None => match l with 0 => None | S l' => longest_of l' n a end
    end.
  (** asf-measurements.cpp:81-95 getNamespaceInfo *)
  Definition get_ns (n : name) (a : asf) : asf * option name :=
    match longest_of (Nat.min (length n) DEPTH) n a with
    | Some m => if mine m then (extend_ns m a, Some m) else (a, None)
    | None => (a, None)
    end.

  (** asf-measurements.cpp:42-46 NamespaceInfo::getFaceInfo *)
  Definition face_info (m : name) (g : N) (a : asf) : option finfo :=
    match as_ns a !! m with Some x => ni_faces x !! g | None => None end.
  Definition set_face (m : name) (g : N) (fi : finfo) (a : asf) : asf :=
    match as_ns a !! m with Some x => set_ns m (set_faces (<[g := fi]> (ni_faces x)) x) a | None => a end.
  (** asf-measurements.cpp:60-65 extendFaceInfoLifetime *)
  Definition extend_face (t : Z) (fi : finfo) : finfo :=
    FInfo (fi_est fi) (fi_rtt fi) (fi_last fi) (fi_n fi) (t + life) (fi_timer fi).
  (** asf-measurements.cpp:39-45 cancelTimeout *)
  Definition cancel_timeout (n : name) (fi : finfo) : finfo :=
    if name_prefixb (fi_last fi) n then FInfo (fi_est fi) (fi_rtt fi) (fi_last fi) (fi_n fi) (fi_life fi) None else fi.
  (** asf-measurements.hpp:63-68 recordRtt *)
  Definition record_rtt (rtt : Z) (fi : finfo) : finfo :=
    FInfo (est_add (fi_est fi) rtt) rtt (fi_last fi) (fi_n fi) (fi_life fi) (fi_timer fi).
  (** asf-measurements.hpp:70-75 recordTimeout *)
  Definition record_timeout (n : name) (fi : finfo) : finfo :=
    cancel_timeout n (FInfo (fi_est fi) RTT_TIMEOUT (fi_last fi) (fi_n fi) (fi_life fi) (fi_timer fi)).
  Definition set_n (k : nat) (fi : finfo) : finfo :=
    FInfo (fi_est fi) (fi_rtt fi) (fi_last fi) k (fi_life fi) (fi_timer fi).
  (** asf-measurements.cpp:30-37 scheduleTimeout, if none is scheduled *)
  Definition schedule_timeout (t : Z) (n : name) (fi : finfo) : finfo :=
    match fi_timer fi with
    | Some _ => fi
    | None => FInfo (fi_est fi) (fi_rtt fi) n (fi_n fi) (fi_life fi) (Some ((t + est_rto (fi_est fi))%Z, n))
    end.
  Definition new_face (t : Z) : finfo := FInfo est_new RTT_NO_MEASUREMENT [] 0 (t + life) None.

  (** asf-strategy.cpp:183-210 forwardInterest, after sendInterest; it makes no difference whether
      that did send the Interest, [sent], or not: outRecord is only returned *)
  Definition after_send (p n : name) (g : N) (sent : bool) (a : asf) : option asf :=
    match get_or_create_ns p n a with
    | None => None
    | Some (a1, m) =>
        let t := as_now a in
        let fi := match face_info m g a1 with Some fi => fi | None => new_face t end in
        Some (set_face m g (schedule_timeout t n (extend_face t fi)) a1)
    end.
  (** asf-strategy.cpp:141-172 beforeSatisfyInterest: PIT entry [n], Data named [d], [rtt] since the
      Interest went to [g], if it did.  The timer of the PIT entry is in [asf_before] below *)
  Definition on_data (n d : name) (g : N) (rtt : option Z) (a : asf) : asf :=
    let '(a1, o) := get_ns n a in
    match o with
    | None => a1
    | Some m =>
        match face_info m g a1 with
        | None => a1
        | Some fi =>
            let fi1 := match rtt with Some r => record_rtt r fi | None => fi end in
            set_face m g (set_n 0 (cancel_timeout d (extend_face (as_now a) fi1))) a1
        end
    end.
  (** asf-strategy.cpp:301-343 onTimeoutOrNack *)
  Definition on_timeout_or_nack (n : name) (g : N) (nack : bool) (a : asf) : asf :=
    let '(a1, o) := get_ns n a in
    match o with
    | None => a1
    | Some m =>
        match face_info m g a1 with
        | None => a1
        | Some fi =>
            let k := S (fi_n fi) in
            if (k <? max_timeouts)%nat && negb nack
            then set_face m g (cancel_timeout n (extend_face (as_now a) (set_n k fi))) a1
            else set_face m g (set_n 0 (record_timeout n (set_n k fi))) a1
        end
    end.
  (** asf-probing-module.cpp:43-60 scheduleProbe *)
  Definition schedule_probe (p : name) (d : Z) (a : asf) : asf :=
    Asf (as_now a) (as_ns a) (as_probes a ++ [((as_now a + d)%Z, p)]).
  Definition set_due (m : name) (b : bool) (a : asf) : asf :=
    match as_ns a !! m with Some x => set_ns m (NInfo (ni_faces x) b (ni_first x) (ni_expiry x)) a | None => a end.
  Definition set_first (m : name) (a : asf) : asf :=
    match as_ns a !! m with Some x => set_ns m (NInfo (ni_faces x) (ni_due x) true (ni_expiry x)) a | None => a end.
  (** asf-probing-module.cpp:191-208 isProbingNeeded; [r] is the random number of nanoseconds *)
  Definition probing_needed (p n : name) (r : Z) (a : asf) : option (asf * bool) :=
    match get_or_create_ns p n a with
    | None => None
    | Some (a1, m) =>
        match as_ns a1 !! m with
        | None => None
        | Some x => Some (if ni_first x then a1 else set_first m (schedule_probe p r a1), ni_due x)
        end
    end.
  (** asf-probing-module.cpp:210-219 afterForwardingProbe *)
  Definition after_probe (p n : name) (a : asf) : option asf :=
    match get_or_create_ns p n a with
    | None => None
    | Some (a1, m) => Some (schedule_probe p probing_interval (set_due m false a1))
    end.
  (** asf-measurements.cpp:73-77 AsfMeasurements::getFaceInfo *)
  Definition get_face_info (p n : name) (g : N) (a : asf) : option (asf * option finfo) :=
    match get_or_create_ns p n a with
    | None => None
    | Some (a1, m) => Some (a1, face_info m g a1)
    end.

  (** what can happen, and when.  Timers fire in any order once they are due *)
  Inductive asf_ev :=
  | ALook (p n : name) (g : N)
  | ASend (p n : name) (g : N) (sent : bool)
  | ANeeded (p n : name) (r : Z)
  | AProbed (p n : name)
  | AData (n d : name) (g : N) (rtt : option Z)
  | ANack (n : name) (g : N)
  | ATimeout (m : name) (g : N)      (* the timer of face [g] in namespace [m] *)
  | AFaceEnd (m : name) (g : N)      (* what is known about [g] in [m] is too old *)
  | AEntryEnd (m : name)             (* measurements.cpp:133-143 cleanup *)
  | AProbeTimer (j : nat).
  Definition at_time (t : Z) (a : asf) : asf := Asf t (as_ns a) (as_probes a).
  Definition asf_step (a0 : asf) (t : Z) (e : asf_ev) : option asf :=
    if (t <? as_now a0)%Z then None
    else
      let a := at_time t a0 in
      match e with
      | ALook p n g => fst <$> get_face_info p n g a
      | ASend p n g sent => after_send p n g sent a
      | ANeeded p n r => fst <$> probing_needed p n r a
      | AProbed p n => after_probe p n a
      | AData n d g rtt => Some (on_data n d g rtt a)
      | ANack n g => Some (on_timeout_or_nack n g true a)
      | ATimeout m g =>
          match face_info m g a with
          | Some fi =>
              match fi_timer fi with
              | Some (d, n) =>
                  if (d <=? t)%Z
                  then Some (on_timeout_or_nack n g false (set_face m g (FInfo (fi_est fi) (fi_rtt fi) (fi_last fi) (fi_n fi) (fi_life fi) None) a))
                  else None
              | None => None
              end
          | None => None
          end
      | AFaceEnd m g =>
          match as_ns a !! m, face_info m g a with
          | Some x, Some fi => if (fi_life fi <=? t)%Z then Some (set_ns m (set_faces (delete g (ni_faces x)) x) a) else None
          | _, _ => None
          end
      | AEntryEnd m =>
          match as_ns a !! m with
          | Some x => if (ni_expiry x <=? t)%Z then Some (Asf t (delete m (as_ns a)) (as_probes a)) else None
          | None => None
          end
      | AProbeTimer j =>
          match as_probes a !! j with
          | Some (d, p) =>
              if (d <=? t)%Z then
                let '(a1, o) := get_ns p (Asf t (as_ns a) (delete j (as_probes a))) in
                Some (match o with Some m => set_due m true a1 | None => a1 end)
              else None
          | None => None
          end
      end.
  Fixpoint asf_run (a : asf) (l : list (Z * asf_ev)) : option asf :=
    match l with
    | [] => Some a
    | (t, e) :: l' => match asf_step a t e with Some a1 => asf_run a1 l' | None => None end
    end.
End meas.
Arguments FInfo {est}.
Arguments fi_est {est}.
Arguments fi_rtt {est}.
Arguments fi_last {est}.
Arguments fi_n {est}.
Arguments fi_life {est}.
Arguments fi_timer {est}.
Arguments NInfo {est}.
Arguments ni_faces {est}.
Arguments ni_due {est}.
Arguments ni_first {est}.
Arguments ni_expiry {est}.
Arguments Asf {est}.
Arguments as_now {est}.
Arguments as_ns {est}.
Arguments as_probes {est}.
Arguments asf_init {est}.
Arguments face_info {est}.

(** * Ranking *)
(** asf-probing-module.hpp:36-42 FaceStats *)
Record fstats := FStats { fs_face : N; fs_rtt : Z; fs_srtt : Z; fs_cost : N }.
Definition NANOSECONDS_MAX : Z := 9223372036854775807.
(** asf-strategy.cpp:234-265 getFaceRankForForwarding and asf-probing-module.cpp:62-95
    getFaceRankForProbing: the tuple *)
Definition rank : Type := Z * Z * N * N.
Definition forwarding_rank (x : fstats) : rank :=
  let prio := (if fs_rtt x =? RTT_NO_MEASUREMENT then 2 else if fs_rtt x =? RTT_TIMEOUT then 3 else 1)%Z in
  (prio, if (prio =? 1)%Z then fs_srtt x else NANOSECONDS_MAX, fs_cost x, fs_face x).
Definition probing_rank (x : fstats) : rank :=
  let prio := (if fs_rtt x =? RTT_NO_MEASUREMENT then 1 else if fs_rtt x =? RTT_TIMEOUT then 3 else 2)%Z in
  (prio, if (prio =? 2)%Z then fs_srtt x else NANOSECONDS_MAX, fs_cost x, fs_face x).
(** operator< of std::tuple *)
Definition rank_lt (x y : rank) : bool :=
  let '(x1, x2, x3, x4) := x in
  let '(y1, y2, y3, y4) := y in
  (x1 <? y1)%Z || (negb (y1 <? x1)%Z &&
  ((x2 <? y2)%Z || (negb (y2 <? x2)%Z &&
  ((x3 <? y3)%N || (negb (y3 <? x3)%N && (x4 <? y4)%N))))).
(** std::set::insert: nothing is inserted if an equivalent one is there *)
Fixpoint set_ins (rk : fstats -> rank) (x : fstats) (l : list fstats) : list fstats :=
  match l with
  | [] => [x]
  | y :: l' => if rank_lt (rk x) (rk y) then x :: l else if rank_lt (rk y) (rk x) then y :: set_ins rk x l' else l
  end.
Definition ranked (rk : fstats -> rank) (l : list fstats) : list fstats := foldl (fun acc x => set_ins rk x acc) [] l.
(** what is known about a face: the last RTT and the smoothed RTT; None if it has no FaceInfo *)
Definition known_of : Type := N -> option (Z * Z).
(** asf-strategy.cpp:282-290 *)
Definition stats_fwd (know : known_of) (nh : nexthop) : fstats :=
  match know (nh_face nh) with
  | None => FStats (nh_face nh) RTT_NO_MEASUREMENT RTT_NO_MEASUREMENT (nh_cost nh)
  | Some (rtt, srtt) => FStats (nh_face nh) rtt srtt (nh_cost nh)
  end.
(** asf-probing-module.cpp:154-163 *)
Definition stats_probe (know : known_of) (nh : nexthop) : fstats :=
  match know (nh_face nh) with
  | None => FStats (nh_face nh) RTT_NO_MEASUREMENT RTT_NO_MEASUREMENT (nh_cost nh)
  | Some (rtt, srtt) =>
      if (rtt =? RTT_NO_MEASUREMENT)%Z then FStats (nh_face nh) RTT_NO_MEASUREMENT RTT_NO_MEASUREMENT (nh_cost nh)
      else FStats (nh_face nh) rtt srtt (nh_cost nh)
  end.
(** asf-strategy.cpp:273-299 getBestFaceForForwarding, of the nexthops that are [eligible] *)
Definition best_face (know : known_of) (eligible : nexthop -> bool) (l : list nexthop) : option N :=
  fs_face <$> head (ranked forwarding_rank (map (stats_fwd know) (List.filter eligible l))).

(** double, as far as fractions between 0 and 1 are added: m * 2^e, rounded to 53 bits, to nearest,
    ties to even.  Exponents do not run out: the numbers here are 0 or above 2^-130 *)
Definition round53 (m e : Z) : Z * Z :=
  let d := (Z.log2 m - 52)%Z in
  if (d <=? 0)%Z then (m, e)
  else
    let q := (m / 2 ^ d)%Z in
    let r := (m mod 2 ^ d)%Z in
    let up := (2 ^ d <? 2 * r)%Z || ((2 ^ d =? 2 * r)%Z && Z.odd q) in
    ((if up then q + 1 else q)%Z, (e + d)%Z).
Definition dle (x y : Z * Z) : bool :=
  let '(m1, e1) := x in
  let '(m2, e2) := y in
  let e := Z.min e1 e2 in (m1 * 2 ^ (e1 - e) <=? m2 * 2 ^ (e2 - e))%Z.
Definition dadd (x y : Z * Z) : Z * Z :=
  let '(m1, e1) := x in
  let '(m2, e2) := y in
  let e := Z.min e1 e2 in round53 (m1 * 2 ^ (e1 - e) + m2 * 2 ^ (e2 - e)) e.
(** a / b for integers 0 < a <= b < 2^53.  The quotient has at least 128 - 53 bits, with a sticky
    bit for the rest *)
Definition ddiv (a b : Z) : Z * Z :=
  let q := (a * 2 ^ 128 / b)%Z in
  let s := if (a * 2 ^ 128 mod b =? 0)%Z then 0%Z else 1%Z in
  round53 (2 * q + s) (-129).
(** asf-probing-module.cpp:103-141 chooseFace; [r] is the random number.  None: the end is reached *)
Fixpoint choose_loop (n : Z) (j : Z) (offset r : Z * Z) (l : list fstats) : option N :=
  match l with
  | [] => None
  | x :: l' =>
      let offset' := dadd offset (ddiv (n + 1 - j) ((n + 1) * n / 2)) in
      if dle r offset' then Some (fs_face x) else choose_loop n (j + 1) offset' r l'
  end.
Definition choose_face (r : Z * Z) (l : list fstats) : option N := choose_loop (Z.of_nat (length l)) 1 (0, 0)%Z r l.
(** asf-probing-module.cpp:143-189 getFaceToProbe, of the nexthops that are [allowed].
    None: undefined *)
Definition face_to_probe (know : known_of) (allowed : nexthop -> bool) (r : Z * Z) (l : list nexthop) : option (option N) :=
  match ranked probing_rank (map (stats_probe know) (List.filter allowed l)) with
  | [] => Some None
  | x :: rl =>
      if (fs_rtt x =? RTT_NO_MEASUREMENT)%Z then Some (Some (fs_face x))
      else match choose_face r (x :: rl) with Some g => Some (Some g) | None => None end
  end.

(** * The strategy *)
(** What the measurements say is a function of the state of the forwarder here: any history of
    measurements is covered.  Creating and refreshing measurements entries is not part of these
    programs. *)
Section strategy.
  Variable know : fw -> name -> name -> known_of.     (* by FIB prefix, Interest name, face *)
  Variable due : fw -> name -> name -> bool.          (* isProbingNeeded *)
  Variable has_info : fw -> name -> N -> bool.        (* there is a FaceInfo for a PIT entry name and a face *)
  Variable double_of : nat -> Z * Z.                  (* uniform_real_distribution *)

  (** Interest::refreshNonce: any other nonce *)
  Definition fresh_nonce (old : N) (x : nat) : N :=
    let y := (N.of_nat x mod 4294967296)%N in
    if (y =? old)%N then ((y + 1) mod 4294967296)%N else y.
  (** asf-probing-module.cpp:150-153 *)
  Definition probe_allowed (F : gmap N face) (f used : N) (i : interest) (nh : nexthop) : bool :=
    match F !! f, F !! nh_face nh with
    | Some infc, Some outfc =>
        negb ((nh_face nh =? f)%N || (nh_face nh =? used)%N || would_violate_scope infc i outfc)
    | _, _ => false
    end.
  (** asf-strategy.cpp:212-231 sendProbe *)
  Definition send_probe (i : interest) (f g : N) (p : name) (l : list nexthop) : sprog :=
    PRead (fun s =>
      if due s p (i_name i) then
        PRand (fun r =>
          match face_to_probe (know s p (i_name i)) (probe_allowed (fw_faces s) f g i) (double_of r) l with
          | None => PFail
          | Some None => PDone
          | Some (Some h) => PRand (fun x => PInterest Trigger (Some (fresh_nonce (i_nonce i) x)) false h (fun _ => PDone))
          end)
      else PDone).
  (** asf-strategy.cpp:102-115, 128-138: unless suppressed, the Interest is sent again *)
  Definition resend (c : retx_cfg) (k : pit_key) (s : fw) (e : pit_entry) (g : N) : sprog :=
    match decide_per_upstream c (now (fw_t s)) e g with
    | None => PFail
    | Some (dec, si) =>
        (match si with Some si => POutInfo g si | None => fun q => q end)
          match dec with
          | RSuppress => PDone
          | _ =>
              PInterest Trigger None false g (fun sent =>
                match dec with
                | RForward =>
                    if sent then
                      with_entry k (fun s1 e1 =>
                        match find_out g (pe_out e1) with
                        | None => PFail
                        | Some r => match increment_interval c (fr_info (or_rec r)) with
                                    | Some si => POutInfo g si PDone
                                    | None => PFail
                                    end
                        end)
                    else PDone
                | _ => PDone
                end)
          end
    end.
  (** asf-strategy.cpp:76-139 afterReceiveInterest *)
  Definition asf_interest (c : retx_cfg) (i : interest) (f : N) (k : pit_key) : sprog :=
    with_entry k (fun s e =>
      match lookup_fib s e with
      | None => PFail
      | Some fe =>
          let l := fe_nexthops fe in
          let kn := know s (fe_prefix fe) (i_name i) in
          if negb (has_pending_out (now (fw_t s)) e) then
            match best_face kn (fun nh => next_hop_eligible (fw_faces s) f i nh e None) l with
            | None => PNack NACK_NO_ROUTE f (PTimer 0 PDone)
            | Some g => PInterest Trigger None false g (fun _ => send_probe i f g (fe_prefix fe) l)
            end
          else
            match best_face kn (fun nh => next_hop_eligible (fw_faces s) f i nh e (Some (now (fw_t s)))) l with
            | Some g => resend c k s e g
            | None =>
                match earliest_out (fw_faces s) f i l e None with
                | None => PFail
                | Some None => PDone
                | Some (Some nh) => resend c k s e (nh_face nh)
                end
            end
      end).
  (** asf-strategy.cpp:166 *)
  Definition asf_before (d : data) (f : N) (k : pit_key) : sprog :=
    PRead (fun s => if has_info s (pk_name k) f then PTimer 50 PDone else PDone).
  (** asf-strategy.cpp:174-181 afterReceiveNack *)
  Definition asf_strategy (order : list N -> list N) (c : retx_cfg) : strategy :=
    Strategy true (asf_interest c) asf_before None (fun _ _ _ k => process_nack order k) (fun _ _ => PDone) (fun _ _ => PDone).
End strategy.
