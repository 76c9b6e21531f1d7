(** The self-learning strategy: daemon/fw/self-learning-strategy.{hpp,cpp}, as a program over the protected
    interface of class Strategy. *)
From stdpp Require Import gmap.
From Verif Require Import Lib Name_Model Packet_Model Nt_Model Tree_Model Tab_Model Fw_Model St_Model.

(** self-learning-strategy.hpp:53-78 InRecordInfo and OutRecordInfo, type ids 1040 and 1041: isNonDiscoveryInterest *)
Definition SL_IN : N := 1040.
Definition SL_OUT : N := 1041.
Definition flag (b : bool) : list Z := [if b then 1 else 0]%Z.
(** what the closures posted by asyncProcessData hold (self-learning-strategy.cpp:192-199): the weak_ptr to the PIT
    entry is an item of the entry, the Data and the face it came from are those of a packet received, which is
    identified by the number of packets logged before it.  The item holds one such number for each lookup
    that is under way.  Simplified: it goes with the strategy info if the strategy is changed *)
Definition SL_WAIT : N := 1042.
Definition waiting_for (si : sinfo) : list Z := default [] (info_get SL_WAIT si).
(** what is posted to the RIB thread (self-learning-strategy.cpp:192-195, 241-247, 254-260), newest first *)
Definition SL_FIND : N := 1.        (* slFindAnn: for the Data received as number .. *)
Definition SL_ANNOUNCE : N := 2.    (* slAnnounce: announcement, face, lifetime in milliseconds *)
Definition SL_RENEW : N := 3.       (* slRenew: for the name in the Nack received as number .., face, lifetime *)
Definition sl_post (what : N) (v : fw -> list Z) (q : sprog) : sprog := PRead (fun s => PPriv ((what, v s) :: fw_priv s) q).
(** the number of the packet now being processed *)
Definition packet_no (s : fw) : Z := Z.of_nat (length (fw_log s)) - 1.
Definition packet_at (s : fw) (n : Z) : option io :=
  if (n <? 0)%Z then None else nth_error (rev (fw_log s)) (Z.to_nat n).
(** self-learning-strategy.cpp:45 ROUTE_RENEW_LIFETIME *)
Definition SL_LIFETIME : Z := 600000.

(** outRecord->insertStrategyInfo<OutRecordInfo>().first->isNonDiscoveryInterest = [nd] *)
Definition sl_mark (g : N) (nd : bool) (k : pit_key) (q : sprog) : sprog :=
  with_entry k (fun s e =>
    match find_out g (pe_out e) with
    | None => PFail
    | Some r => POutInfo g (info_set SL_OUT (flag nd) (fr_info (or_rec r))) q
    end).

(** the faces of the face table (a std::map), last first *)
Definition faces_desc (F : gmap N face) : list N := rev (merge_sort N.le (map fst (map_to_list F))).
(** self-learning-strategy.cpp:146-163 broadcastInterest *)
Definition bc_skips (F : gmap N face) (infc : face) (i : interest) (f g : N) : bool :=
  match F !! g with
  | None => true
  | Some outfc => ((g =? f)%N && negb (is_adhoc outfc)) || would_violate_scope infc i outfc || fc_local outfc
  end.
Fixpoint sl_broadcast (F : gmap N face) (infc : face) (i : interest) (f : N) (k : pit_key) (l : list N) : sprog :=
  match l with
  | [] => PDone
  | g :: l' =>
      let next := sl_broadcast F infc i f k l' in
      if bc_skips F infc i f g then next
      else PInterest Trigger None false g (fun sent => if sent : bool then sl_mark g false k next else next)
  end.
(** self-learning-strategy.cpp:165-182 multicastInterest.  [mark]: the Interest has just been given the NonDiscovery tag.
    Simplified: the tag goes on the Interest sent; in the code it goes on the object, which is also the one the
    in-record holds *)
Fixpoint sl_multicast (F : gmap N face) (mark : bool) (i : interest) (f : N) (e : pit_entry) (k : pit_key) (l : list nexthop) : sprog :=
  match l with
  | [] => PDone
  | nh :: l' =>
      let next := sl_multicast F mark i f e k l' in
      if negb (next_hop_eligible F f i nh e None) then next
      else PInterest Trigger None mark (nh_face nh) (fun sent => if sent : bool then sl_mark (nh_face nh) true k next else next)
  end.
(** self-learning-strategy.cpp:68-100 afterReceiveInterest *)
Definition sl_interest (i : interest) (f : N) (k : pit_key) : sprog :=
  with_entry k (fun s e =>
    match lookup_fib s e, find_in f (pe_in e), fw_faces s !! f with
    | Some fe, Some r, Some infc =>
        PInInfo f (info_set SL_IN (flag (i_nondisc i)) (fr_info (ir_rec r)))
          match i_nondisc i, fe_nexthops fe with
          | true, [] => PNack NACK_NO_ROUTE f (PTimer 0 PDone)
          | true, l => sl_multicast (fw_faces s) false i f e k l
          | false, [] => sl_broadcast (fw_faces s) infc i f k (faces_desc (fw_faces s))
          | false, l => sl_multicast (fw_faces s) true i f e k l
          end
    | _, _, _ => PFail
    end).

(** self-learning-strategy.cpp:216-235 needPrefixAnn *)
Definition need_prefix_ann (s : fw) (e : pit_entry) : bool :=
  let l := List.filter (fun r => (now (fw_t s) <? fr_expiry (ir_rec r))%Z) (pe_in e) in
  existsb (fun r => match info_get SL_IN (fr_info (ir_rec r)) with Some [b] => (b =? 0)%Z | _ => false end) l &&
  existsb (fun r => match fw_faces s !! fr_face (ir_rec r) with Some fc => negb (fc_local fc) | None => false end) l.

Section sl.
  (** the prefix announcement attached to a Data packet; attaching one *)
  Variable get_ann : N -> option Z.
  Variable put_ann : Z -> N -> N.
  Definition attach (pa : Z) (d : data) : data := Data (d_name d) (d_digest d) (d_fresh d) (d_nocache d) (put_ann pa (d_content d)).

  (** self-learning-strategy.cpp:102-130 afterReceiveData, 184-214 asyncProcessData, 237-248 addRoute *)
  Definition sl_data (d : data) (f : N) (k : pit_key) : sprog :=
    with_entry k (fun s e =>
      match find_out f (pe_out e) with
      | None => PDone
      | Some r =>
          match info_get SL_OUT (fr_info (or_rec r)) with
          | Some [1%Z] =>
              if need_prefix_ann s e then
                sl_post SL_FIND (fun s => [packet_no s])
                  (PTimer 1000 (PInfo (info_set SL_WAIT (packet_no s :: waiting_for (pe_info e)) (pe_info e)) PDone))
              else PDataToAll d f PDone
          | _ =>
              match get_ann (d_content d) with
              | Some pa => sl_post SL_ANNOUNCE (fun _ => [pa; Z.of_N f; SL_LIFETIME]) (PDataToAll d f PDone)
              | None => PDataToAll d f PDone
              end
          end
      end).
  (** self-learning-strategy.cpp:197-211: an announcement [pa] was found for the Data received as number [n] *)
  Definition sl_found (arg : list Z) (k : pit_key) : sprog :=
    match arg with
    | [n; pa] =>
        PRead (fun s =>
          match pit_get k (fw_t s) with
          | None => PDone
          | Some e =>
              if existsb (Z.eqb n) (waiting_for (pe_info e)) then
                PInfo (info_set SL_WAIT (List.filter (fun m => negb (m =? n)%Z) (waiting_for (pe_info e))) (pe_info e))
                  match packet_at s n with
                  | Some (Rx_data f d) =>
                      match fw_faces s !! f with
                      | Some _ => PDataToAll (attach pa d) f (PTimer 0 PDone)
                      | None => PDone
                      end
                  | _ => PDone
                  end
              else PDone
          end)
    | _ => PDone
    end.
  (** self-learning-strategy.cpp:132-144 afterReceiveNack, 250-261 renewRoute.  The request to the RIB thread is posted
      after the Nacks are sent; which is first cannot be told *)
  Definition sl_nack (order : list N -> list N) (i : interest) (reason f : N) (k : pit_key) : sprog :=
    if (reason =? NACK_NO_ROUTE)%N then
      with_entry k (fun s e =>
        match lookup_fib s e with
        | None => PFail
        | Some fe =>
            match fe_nexthops fe with
            | [] => PFail                                            (* line 139 *)
            | _ => sl_post SL_RENEW (fun s => [packet_no s; Z.of_N f; 0%Z]) (send_nacks order reason e)
            end
        end)
    else PDone.
  (** other triggers are the default ones, strategy.cpp:176-219.  afterReceiveData calls beforeSatisfyInterest in the default
      one only *)
  Definition self_learning (order : list N -> list N) : strategy :=
    Strategy true sl_interest (fun _ _ _ => PDone) (Some sl_data) (sl_nack order) (fun _ _ => PDone) sl_found.
End sl.
