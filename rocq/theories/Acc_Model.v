(** The access strategy: daemon/fw/access-strategy.{hpp,cpp}, as a program over the protected
    interface of class Strategy. *)
From stdpp Require Import gmap.
From Verif Require Import Lib Name_Model Packet_Model Nt_Model Tree_Model Tab_Model Fw_Model St_Model.

(** access-strategy.hpp:73-84 PitInfo, type id 1010: the RTO timer.  What it holds here is when it is due, the
    face the Interest came from and the face it was sent to (access-strategy.cpp:150-155).  A timer that is
    cancelled, or has run, is removed *)
Definition ACCESS_PIT : N := 1010.
(** access-strategy.hpp:88-109 MtInfo, type id 1011: the last working nexthop, then the samples its
    RTT estimator has been given, oldest first *)
Definition ACCESS_MEAS : N := 1011.
(** access-strategy.cpp:275 *)
Definition ACCESS_LIFE : Z := 8000000000.
(** retx-suppression-fixed.hpp:49 DEFAULT_MIN_RETX_INTERVAL, in milliseconds *)
Definition ACCESS_RETX : Z := 100.

Definition info_del (id : N) (si : sinfo) : sinfo := List.filter (fun x => negb (fst x =? id)%N) si.

(** measurements-accessor.cpp:44-56 filter: the strategy that is effective for [n] is the one that is for the
    PIT entry.  A StrategyChoice entry and the strategy object it owns are identified by the prefix *)
Definition same_strategy (s : fw) (k : pit_key) (n : name) : bool :=
  match effective (pk_name k) (fw_t s), effective n (fw_t s) with
  | Some (p, _), Some (q, _) => name_eqb p q
  | _, _ => false
  end.

Section access.
  (** ndn::util::RttEstimator::getEstimatedRto after these samples, in nanoseconds *)
  Variable rto_of : list Z -> Z.
  (** m_fit (access-strategy.hpp:135-136): the samples the RTT estimator of a face has been given so far *)
  Variable fit : fw -> pit_key -> N -> list Z.

  (** access-strategy.cpp:246-259 findPrefixMeasurements: lastNexthop and the samples.  The filter comes after the
      longest prefix match (measurements-accessor.hpp:151-156) *)
  Definition find_prefix_meas (s : fw) (k : pit_key) : option (N * list Z) :=
    match meas_lpm (pk_name k) (fun _ => true) (fw_t s) with
    | None => None
    | Some m =>
        if same_strategy s k (me_name m) then
          match info_get ACCESS_MEAS (me_info m) with
          | Some (g :: l) => Some (Z.to_N g, l)
          | _ => None
          end
        else None
    end.

  (** access-strategy.cpp:185-206 multicast; [n] is nSent so far *)
  Definition skips (F : gmap N face) (infc : face) (i : interest) (f except : N) (nh : nexthop) : bool :=
    (nh_face nh =? f)%N || (nh_face nh =? except)%N ||
    match F !! nh_face nh with Some outfc => would_violate_scope infc i outfc | None => true end.
  Fixpoint access_multicast (F : gmap N face) (infc : face) (src : isrc) (i : interest) (f except : N) (l : list nexthop) (n : nat) (q : nat -> sprog) : sprog :=
    match l with
    | [] => q n
    | nh :: l' =>
        if skips F infc i f except nh then access_multicast F infc src i f except l' n q
        else PInterest src None false (nh_face nh) (fun sent =>
               access_multicast F infc src i f except l' (if sent then S n else n) q)
    end.

  (** access-strategy.cpp:119-144 sendToLastNexthop, the checks.  [g = 0] is INVALID_FACEID *)
  Definition last_usable (F : gmap N face) (infc : face) (i : interest) (f g : N) (l : list nexthop) : bool :=
    negb (g =? 0)%N && negb (g =? f)%N &&
    match F !! g with
    | Some outfc => existsb (fun nh => (nh_face nh =? g)%N) l && negb (would_violate_scope infc i outfc)
    | None => false
    end.
  (** access-strategy.cpp:59-117 afterReceiveInterest, afterReceiveNewInterest, afterReceiveRetxInterest *)
  Definition access_interest (i : interest) (f : N) (k : pit_key) : sprog :=
    with_entry k (fun s e =>
      match decide_fixed ACCESS_RETX (now (fw_t s)) e with
      | None => PFail
      | Some RSuppress => PDone
      | Some dec =>
          match lookup_fib s e, fw_faces s !! f with
          | Some fe, Some infc =>
              let multicast := access_multicast (fw_faces s) infc Trigger i f 0 (fe_nexthops fe) 0 in
              match dec with
              | RNew =>
                  let to_all := multicast (fun n => if (n =? 0)%nat then PTimer 0 PDone else PDone) in
                  match find_prefix_meas s k with
                  | Some (g, samples) =>
                      if last_usable (fw_faces s) infc i f g (fe_nexthops fe) then
                        PInterest Trigger None false g (fun sent =>
                          if sent then PInfo (info_set ACCESS_PIT [now (fw_t s) + rto_of samples; Z.of_N f; Z.of_N g]%Z (pe_info e)) PDone
                          else to_all)
                      else to_all
                  | None => to_all
                  end
              | _ => multicast (fun _ => PDone)
              end
          | _, _ => PFail
          end
      end).

  (** access-strategy.cpp:158-183 afterRtoTimeout.  The timer of an entry that is gone has been cancelled *)
  Definition access_timeout (k : pit_key) : sprog :=
    PRead (fun s =>
      match pit_get k (fw_t s) with
      | None => PDone
      | Some e =>
          match info_get ACCESS_PIT (pe_info e) with
          | Some [t; f; g] =>
              if (now (fw_t s) <? t)%Z then PDone
              else PInfo (info_del ACCESS_PIT (pe_info e))
                match fw_faces s !! Z.to_N f with
                | None => PDone
                | Some infc =>
                    match find_in (Z.to_N f) (pe_in e), lookup_fib s e with
                    | Some r, Some fe => access_multicast (fw_faces s) infc (OfInRecord (Z.to_N f)) (ir_interest r) (Z.to_N f) (Z.to_N g) (fe_nexthops fe) 0 (fun _ => PDone)
                    | _, _ => PFail
                    end
                end
          | _ => PDone
          end
      end).

  (** access-strategy.cpp:230-244 updateMeasurements and 275-276, for the measurements entry named [m]; [fi] are the samples of
      the face with the one of now, [rtt] *)
  Definition access_note (f : N) (rtt : Z) (fi : list Z) (m : name) : sprog :=
    PMeasExtend m ACCESS_LIFE (PRead (fun s =>
      match (match tr (fw_t s) !! m with Some nte => e_meas nte | None => None end) with
      | None => PFail
      | Some me =>
          let samples := match info_get ACCESS_MEAS (me_info me) with
                         | Some (g :: l) => if (Z.to_N g =? f)%N then l ++ [rtt] else fi
                         | _ => fi
                         end in
          PMeasInfo m (info_set ACCESS_MEAS (Z.of_N f :: samples) (me_info me)) PDone
      end)).
  (** access-strategy.cpp:261-277 addPrefixMeasurements.  Measurements::get makes the entry even if the
      accessor then withholds it *)
  Definition depth_cut (n : name) : name := take (Nat.min (length n) MAX_DEPTH) n.
  Definition access_learn (d : data) (f : N) (k : pit_key) (rtt : Z) (fi : list Z) : sprog :=
    let self := PMeasGet (d_name d) (PRead (fun s =>
      if same_strategy s k (depth_cut (d_name d)) then access_note f rtt fi (depth_cut (d_name d)) else PFail)) in
    match d_name d with
    | [] => self
    | _ => let p := take (length (d_name d) - 1) (d_name d) in
           PMeasGet p (PRead (fun s => if same_strategy s k (depth_cut p) then access_note f rtt fi (depth_cut p) else self))
    end.
  (** access-strategy.cpp:208-228 beforeSatisfyInterest *)
  Definition access_before (d : data) (f : N) (k : pit_key) : sprog :=
    with_entry k (fun s e =>
      PInfo (info_del ACCESS_PIT (pe_info e))
        match pe_in e with
        | [] => PDone
        | _ => match find_out f (pe_out e) with
               | None => PDone
               | Some r => let rtt := (now (fw_t s) - fr_renewed (or_rec r))%Z in
                           access_learn d f k rtt (fit s k f ++ [rtt])
               end
        end).

  (** access-strategy.hpp:40-67: the other triggers are those of class Strategy; Nacks are ignored *)
  Definition access_strategy : strategy :=
    Strategy true access_interest access_before None (fun _ _ _ _ => PDone) (fun _ _ => PDone) (fun _ k => access_timeout k).
End access.
