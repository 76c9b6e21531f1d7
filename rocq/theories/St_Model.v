(** Strategies: daemon/fw/{retx-suppression-exponential,retx-suppression-fixed,process-nack-traits,
    best-route-strategy,multicast-strategy,random-strategy}.cpp, written as programs over the
    protected interface of class Strategy (Fw_Model.sprog). *)
From stdpp Require Import gmap.
From Verif Require Import Lib Name_Model Packet_Model Nt_Model Tree_Model Tab_Model Fw_Model.

(** * strategy-info-host.hpp:40-90: items by type id; an item is its members *)
Definition info_get (id : N) (si : sinfo) : option (list Z) :=
  snd <$> List.find (fun x => (fst x =? id)%N) si.
Definition info_set (id : N) (v : list Z) (si : sinfo) : sinfo :=
  (id, v) :: List.filter (fun x => negb (fst x =? id)%N) si.

(** * float (IEEE 754 binary32), as far as a number >= 1 is multiplied by a number >= 1 *)
(** [Fin m e] is m * 2^e *)
Inductive flt := Nan | Inf (neg : bool) | Fin (m e : Z).
(** x < 1.0f *)
Definition below_one (x : flt) : bool :=
  match x with
  | Nan => false
  | Inf neg => neg
  | Fin m e => if (0 <=? e)%Z then (m <=? 0)%Z else (m <? 2 ^ (- e))%Z
  end.
(** rounding to 24 bits, to nearest, ties to even *)
Definition round24 (m e : Z) : Z * Z :=
  let d := (Z.log2 m - 23)%Z in
  if (d <=? 0)%Z then (m, e)
  else
    let q := (m / 2 ^ d)%Z in
    let r := (m mod 2 ^ d)%Z in
    let up := (2 ^ d <? 2 * r)%Z || ((2 ^ d =? 2 * r)%Z && Z.odd q) in
    ((if up then q + 1 else q)%Z, (e + d)%Z).
Definition INT64_MAX : Z := 9223372036854775807.
(** static_cast<int64_t>(m * 2^e): truncated; None is undefined behaviour *)
Definition to_int64 (m e : Z) : option Z :=
  let v := if (0 <=? e)%Z then (m * 2 ^ e)%Z else (m / 2 ^ (- e))%Z in
  if (v <=? INT64_MAX)%Z then Some v else None.
(** duration_cast<milliseconds>(interval * multiplier): the interval is converted to float,
    multiplied, and converted back *)
Definition scale (iv : Z) (x : flt) : option Z :=
  match x with
  | Fin m e =>
      let '(m1, e1) := round24 iv 0 in
      let '(m2, e2) := round24 (m1 * m) (e1 + e) in
      to_int64 m2 e2
  | _ => None
  end.

(** * retx-suppression-exponential.cpp *)
Record retx_cfg := RetxCfg { rx_initial : Z; rx_max : Z; rx_mult : flt }.
(** retx-suppression-exponential.cpp:51-68 the constructor; None is std::invalid_argument *)
Definition retx_new (initial max : Z) (mult : flt) : option retx_cfg :=
  if (initial <=? 0)%Z then None
  else if (max <? initial)%Z then None
  else if below_one mult then None
  else Some (RetxCfg initial max mult).
(** retx-suppression-exponential.hpp:92-94 *)
Definition retx_default : retx_cfg := RetxCfg 10 250 (Fin 1 1).
Inductive retx := RNew | RForward | RSuppress.
(** retx-suppression-exponential.cpp:34 PitInfo::getTypeId *)
Definition RETX_INFO : N := 1020.
Definition info_interval (c : retx_cfg) (si : sinfo) : Z :=
  match info_get RETX_INFO si with Some [iv] => iv | _ => rx_initial c end.
Definition grow (c : retx_cfg) (iv : Z) : option Z :=
  match scale iv (rx_mult c) with Some v => Some (Z.min (rx_max c) v) | None => None end.
(** (now - last) < interval, in nanoseconds; None: the interval does not fit *)
Definition within (t last iv : Z) : option bool :=
  if (INT64_MAX <? iv * NS_PER_MS)%Z then None else Some (t - last <? iv * NS_PER_MS)%Z.
(** retx-suppression-exponential.cpp:70-97 decidePerPitEntry: the decision, and the strategy
    info if it is changed.  None: assertion or undefined behaviour *)
Definition decide_per_pit (c : retx_cfg) (t : Z) (e : pit_entry) : option (retx * option sinfo) :=
  if negb (has_pending_out t e) then Some (RNew, None)
  else
    match get_last_outgoing e with
    | None => None
    | Some last =>
        let iv := info_interval c (pe_info e) in
        match within t last iv with
        | None => None
        | Some true => Some (RSuppress, Some (info_set RETX_INFO [iv] (pe_info e)))
        | Some false =>
            match grow c iv with
            | None => None
            | Some iv' => Some (RForward, Some (info_set RETX_INFO [iv'] (pe_info e)))
            end
        end
    end.
(** retx-suppression-exponential.cpp:99-123 decidePerUpstream: the decision, and the info of the
    out-record *)
Definition decide_per_upstream (c : retx_cfg) (t : Z) (e : pit_entry) (f : N) : option (retx * option sinfo) :=
  match find_out f (pe_out e) with
  | None => Some (RNew, None)
  | Some r =>
      let si := fr_info (or_rec r) in
      let iv := info_interval c si in
      match within t (fr_renewed (or_rec r)) iv with
      | None => None
      | Some b => Some (if b then RSuppress else RForward, Some (info_set RETX_INFO [iv] si))
      end
  end.
(** retx-suppression-exponential.cpp:125-131 incrementIntervalForOutRecord: the new info *)
Definition increment_interval (c : retx_cfg) (si : sinfo) : option sinfo :=
  match grow c (info_interval c si) with
  | Some iv => Some (info_set RETX_INFO [iv] si)
  | None => None
  end.

(** retx-suppression-fixed.cpp:37-57 *)
Definition decide_fixed (min_interval t : Z) (e : pit_entry) : option retx :=
  if negb (has_pending_out t e) then Some RNew
  else
    match get_last_outgoing e with
    | None => None
    | Some last => Some (if (t - last <? min_interval * NS_PER_MS)%Z then RSuppress else RForward)
    end.

(** * process-nack-traits.cpp *)
(** lp::NackHeader::getReason *)
Definition nack_reason (r : N) : N :=
  if ((r =? NACK_CONGESTION) || (r =? NACK_DUPLICATE) || (r =? NACK_NO_ROUTE))%N then r else NACK_NONE.
(** lp::isLessSevere *)
Definition less_severe (x y : N) : bool :=
  if (x =? NACK_NONE)%N then false else if (y =? NACK_NONE)%N then true else (x <? y)%N.
(** process-nack-traits.cpp:36-52: how many out-records are not Nacked, the last of them, the
    least severe reason *)
Fixpoint nack_scan (l : list out_record) (n : nat) (last : option N) (least : N) : nat * option N * N :=
  match l with
  | [] => (n, last, least)
  | r :: l' =>
      match or_nack r with
      | None => nack_scan l' (S n) (Some (fr_face (or_rec r))) least
      | Some x => nack_scan l' n last (if less_severe (nack_reason x) least then nack_reason x else least)
      end
  end.
(** strategy.cpp:276-296 sendNacks; [order] is that of the hash set *)
Fixpoint nack_each (reason : N) (l : list N) (q : sprog) : sprog :=
  match l with [] => q | f :: l' => PNack reason f (nack_each reason l' q) end.
Definition send_nacks (order : list N -> list N) (reason : N) (e : pit_entry) : sprog :=
  nack_each reason (order (map (fun r => fr_face (ir_rec r)) (pe_in e))) PDone.
(** process-nack-traits.cpp:33-76 processNack *)
Definition process_nack (order : list N -> list N) (k : pit_key) : sprog :=
  PRead (fun s =>
    match pit_get k (fw_t s) with
    | None => PFail
    | Some e =>
        let '(n, last, least) := nack_scan (pe_out e) 0 None NACK_NONE in
        let wait := if (0 <? n)%nat then PDone else send_nacks order least e in
        if (n =? 1)%nat then
          match last with
          | None => PFail
          | Some f => match find_in f (pe_in e) with
                      | Some _ => PNack least f PDone
                      | None => wait
                      end
          end
        else wait
    end).

(** * best-route-strategy.cpp *)
(** what a trigger reads first: the PIT entry *)
Definition with_entry (k : pit_key) (q : fw -> pit_entry -> sprog) : sprog :=
  PRead (fun s => match pit_get k (fw_t s) with Some e => q s e | None => PFail end).
Definition set_info (o : option sinfo) (q : sprog) : sprog := match o with Some si => PInfo si q | None => q end.
(** best-route-strategy.cpp:59-118 afterReceiveInterest *)
Definition best_route_interest (c : retx_cfg) (i : interest) (f : N) (k : pit_key) : sprog :=
  with_entry k (fun s e =>
    match decide_per_pit c (now (fw_t s)) e with
    | None => PFail
    | Some (dec, si) =>
        set_info si
          match dec with
          | RSuppress => PDone
          | _ =>
              match lookup_fib s e with
              | None => PFail
              | Some fe =>
                  let l := fe_nexthops fe in
                  match dec with
                  | RNew =>
                      match List.find (fun nh => next_hop_eligible (fw_faces s) f i nh e None) l with
                      | None => PNack NACK_NO_ROUTE f (PTimer 0 PDone)
                      | Some nh => PInterest Trigger None false (nh_face nh) (fun _ => PDone)
                      end
                  | _ =>
                      match List.find (fun nh => next_hop_eligible (fw_faces s) f i nh e (Some (now (fw_t s)))) l with
                      | Some nh => PInterest Trigger None false (nh_face nh) (fun _ => PDone)
                      | None =>
                          match earliest_out (fw_faces s) f i l e None with
                          | None => PFail
                          | Some None => PDone
                          | Some (Some nh) => PInterest Trigger None false (nh_face nh) (fun _ => PDone)
                          end
                      end
                  end
              end
          end
    end).
(** best-route-strategy.cpp:120-125 afterReceiveNack; other triggers are the default ones,
    strategy.cpp:176-219 *)
Definition best_route (order : list N -> list N) (c : retx_cfg) : strategy :=
  Strategy true (best_route_interest c) (fun _ _ _ => PDone) None (fun _ _ _ k => process_nack order k)
    (fun _ _ => PDone) (fun _ _ => PDone).

(** * multicast-strategy.cpp *)
(** multicast-strategy.cpp:60-87 afterReceiveInterest, the loop.  The out-record is looked at
    when its turn comes *)
Fixpoint multicast_loop (c : retx_cfg) (i : interest) (f : N) (k : pit_key) (l : list nexthop) : sprog :=
  match l with
  | [] => PDone
  | nh :: l' =>
      let g := nh_face nh in
      with_entry k (fun s e =>
        match decide_per_upstream c (now (fw_t s)) e g with
        | None => PFail
        | Some (dec, si) =>
            let next := multicast_loop c i f k l' in
            (match si with Some si => POutInfo g si | None => fun q => q end)
              match dec with
              | RSuppress => next
              | _ =>
                  if negb (next_hop_eligible (fw_faces s) f i nh e None) then next
                  else PInterest Trigger None false g (fun sent =>
                    match dec with
                    | RForward =>
                        if sent then
                          with_entry k (fun s1 e1 =>
                            match find_out g (pe_out e1) with
                            | None => PFail
                            | Some r => match increment_interval c (fr_info (or_rec r)) with
                                        | Some si => POutInfo g si next
                                        | None => PFail
                                        end
                            end)
                        else next
                    | _ => next
                    end)
              end
        end)
  end.
Definition multicast_interest (c : retx_cfg) (i : interest) (f : N) (k : pit_key) : sprog :=
  with_entry k (fun s e =>
    match lookup_fib s e with
    | None => PFail
    | Some fe => multicast_loop c i f k (fe_nexthops fe)
    end).
(** multicast-strategy.cpp:89-109 afterNewNextHop *)
Definition multicast_newhop (nh : nexthop) (k : pit_key) : sprog :=
  with_entry k (fun s e =>
    match List.find (fun r => next_hop_eligible (fw_faces s) (fr_face (ir_rec r)) (pe_interest e) nh e None) (pe_in e) with
    | Some _ => PInterest OfEntry None false (nh_face nh) (fun _ => PDone)
    | None => PDone
    end).
(** multicast-strategy.hpp:45-60: Nacks are ignored (strategy.cpp:204-212), so are loops *)
Definition multicast (c : retx_cfg) : strategy :=
  Strategy false (multicast_interest c) (fun _ _ _ => PDone) None (fun _ _ _ _ => PDone) multicast_newhop (fun _ _ => PDone).

(** * random-strategy.cpp *)
(** random-strategy.cpp:58-86; the head of a shuffled list is any of its members *)
Definition random_interest (i : interest) (f : N) (k : pit_key) : sprog :=
  with_entry k (fun s e =>
    match lookup_fib s e with
    | None => PFail
    | Some fe =>
        let l := List.filter (fun nh => next_hop_eligible (fw_faces s) f i nh e None) (fe_nexthops fe) in
        match l with
        | [] => PNack NACK_NO_ROUTE f (PTimer 0 PDone)
        | nh0 :: _ => PRand (fun x => PInterest Trigger None false (nh_face (nth (x mod length l)%nat l nh0)) (fun _ => PDone))
        end
    end).
Definition random_strategy (order : list N -> list N) : strategy :=
  Strategy true random_interest (fun _ _ _ => PDone) None (fun _ _ _ k => process_nack order k) (fun _ _ => PDone) (fun _ _ => PDone).
