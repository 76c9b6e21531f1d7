(** The generic link service: daemon/face/generic-link-service.cpp. *)
From stdpp Require Import gmap.
From Verif Require Import Lib Lp_Model Rel_Model.

(** generic-link-service.hpp:93-154 Options.  The reassembler's options are in its state.  Of the
    reliability options only isEnabled can change here: LpReliability never reads another option
    than those fixed in Rel_Model's section *)
Record ls_opts := LsOpts {
  o_local : bool;                  (* allowLocalFields *)
  o_frag : bool;                   (* allowFragmentation *)
  o_reasm : bool;                  (* allowReassembly *)
  o_rel : bool;                    (* reliabilityOptions.isEnabled *)
  o_mark : bool;                   (* allowCongestionMarking *)
  o_base : Z;                      (* baseCongestionMarkingInterval *)
  o_thr : Z;                       (* defaultCongestionThreshold *)
  o_learn : bool;                  (* allowSelfLearning *)
  o_override : Z;                  (* overrideMtu *)
  o_maxfrag : N;                   (* fragmenterOptions.nMaxFragments *)
}.

(** the tags of a packet that are read or written here *)
Record tags := Tags {
  t_inface : option N;             (* IncomingFaceIdTag *)
  t_nexthop : option N;            (* NextHopFaceIdTag *)
  t_mark : option N;               (* CongestionMarkTag *)
  t_nondisc : bool;                (* NonDiscoveryTag *)
  t_pa : option (list N);          (* PrefixAnnouncementTag *)
  t_pit : option (list N);         (* PitToken *)
  t_cache : option (list N);       (* CachePolicyTag *)
}.
Definition no_tags : tags := Tags None None None false None None None.

(** a network packet: an Interest or Data, as its octets, or a Nack, as its header and the octets of
    its Interest *)
Inductive net_kind := KInterest | KData | KNack (header : list N).
Record net_packet := NetPacket { n_kind : net_kind; n_wire : list N; n_tags : tags }.

(** checkCongestionLevel was called: when, with what queue length and threshold, and whether it marked the packet *)
Record check := Check { c_time : Z; c_len : Z; c_thr : Z; c_base : Z; c_marked : bool }.

(** a packet given to the transport, and the effective MTU then *)
Record handed := Handed { h_mtu : Z; h_pkt : lp }.

Record counters := Counters {
  k_frag_err : N;                  (* nFragmentationErrors *)
  k_over : N;                      (* nOutOverMtu *)
  k_lp_invalid : N;                (* nInLpInvalid *)
  k_net_invalid : N;               (* nInNetInvalid *)
  k_dup : N;                       (* nDuplicateSequence *)
  k_marked : N;                    (* nCongestionMarked *)
}.

(** generic-link-service.hpp:306-326.  [l_out], [l_up] and [l_checks] are ghosts: what was given to
    the transport and to the forwarder, and the calls of checkCongestionLevel, newest first *)
Record ls := Ls {
  l_o : ls_opts;
  l_tmtu : Z;                      (* Transport::getMtu *)
  l_rel : rel;
  l_ra : ra;
  l_last : N;                      (* m_lastSeqNo *)
  l_next : option Z;               (* m_nextMarkTime; None is time_point::max() *)
  l_inmark : N;                    (* m_nMarkedSinceInMarkingState *)
  l_k : counters;
  l_out : list handed;
  l_up : list net_packet;
  l_checks : list check;
}.
Definition set_opts o m s := Ls o m (l_rel s) (l_ra s) (l_last s) (l_next s) (l_inmark s) (l_k s) (l_out s) (l_up s) (l_checks s).
Definition set_lrel x s := Ls (l_o s) (l_tmtu s) x (l_ra s) (l_last s) (l_next s) (l_inmark s) (l_k s) (l_out s) (l_up s) (l_checks s).
Definition set_lra x s := Ls (l_o s) (l_tmtu s) (l_rel s) x (l_last s) (l_next s) (l_inmark s) (l_k s) (l_out s) (l_up s) (l_checks s).
Definition set_llast x s := Ls (l_o s) (l_tmtu s) (l_rel s) (l_ra s) x (l_next s) (l_inmark s) (l_k s) (l_out s) (l_up s) (l_checks s).
Definition set_marking x n s := Ls (l_o s) (l_tmtu s) (l_rel s) (l_ra s) (l_last s) x n (l_k s) (l_out s) (l_up s) (l_checks s).
Definition set_k x s := Ls (l_o s) (l_tmtu s) (l_rel s) (l_ra s) (l_last s) (l_next s) (l_inmark s) x (l_out s) (l_up s) (l_checks s).
Definition add_out x s := Ls (l_o s) (l_tmtu s) (l_rel s) (l_ra s) (l_last s) (l_next s) (l_inmark s) (l_k s) (x :: l_out s) (l_up s) (l_checks s).
Definition add_up x s := Ls (l_o s) (l_tmtu s) (l_rel s) (l_ra s) (l_last s) (l_next s) (l_inmark s) (l_k s) (l_out s) (x :: l_up s) (l_checks s).
Definition add_check x s := Ls (l_o s) (l_tmtu s) (l_rel s) (l_ra s) (l_last s) (l_next s) (l_inmark s) (l_k s) (l_out s) (l_up s) (x :: l_checks s).
Definition k_frag_err1 k := Counters (k_frag_err k + 1) (k_over k) (k_lp_invalid k) (k_net_invalid k) (k_dup k) (k_marked k).
Definition k_over1 k := Counters (k_frag_err k) (k_over k + 1) (k_lp_invalid k) (k_net_invalid k) (k_dup k) (k_marked k).
Definition k_lp_invalid1 k := Counters (k_frag_err k) (k_over k) (k_lp_invalid k + 1) (k_net_invalid k) (k_dup k) (k_marked k).
Definition k_net_invalid1 k := Counters (k_frag_err k) (k_over k) (k_lp_invalid k) (k_net_invalid k + 1) (k_dup k) (k_marked k).
Definition k_dup1 k := Counters (k_frag_err k) (k_over k) (k_lp_invalid k) (k_net_invalid k) (k_dup k + 1) (k_marked k).
Definition k_marked1 k := Counters (k_frag_err k) (k_over k) (k_lp_invalid k) (k_net_invalid k) (k_dup k) (k_marked k + 1).

(** generic-link-service.cpp:38-40, lp-reliability.hpp:50-53 *)
Definition CONGESTION_MARK_SIZE : Z := 12.
Definition RESERVED_HEADER_SPACE : Z := 12.
(** face-common.hpp:66 *)
Definition MIN_MTU : Z := 64.

(** generic-link-service.cpp:62-67 getEffectiveMtu *)
Definition effective_mtu (o : ls_opts) (tmtu : Z) : Z := Z.min (o_override o) tmtu.
(** generic-link-service.cpp:69-79 canOverrideMtuTo *)
Definition can_override (tmtu mtu : Z) : bool := if (tmtu =? MTU_UNLIMITED)%Z then false else (MIN_MTU <=? mtu)%Z.
(** generic-link-service.cpp:184-195: the MTU for the fragmenter; None is line 195's assertion *)
Definition fragment_mtu (o : ls_opts) (mtu : Z) : option Z :=
  let m1 := if o_rel o && negb (mtu =? MTU_UNLIMITED)%Z then (mtu - RESERVED_HEADER_SPACE)%Z else mtu in
  let m2 := if o_mark o && negb (m1 =? MTU_UNLIMITED)%Z then (m1 - CONGESTION_MARK_SIZE)%Z else m1 in
  if (m2 =? MTU_UNLIMITED)%Z || (0 <=? m2)%Z then Some m2 else None.

(** generic-link-service.cpp:148-178 encodeLpFields, and 113-138: the LpPacket of a network packet *)
Definition encode (o : ls_opts) (n : net_packet) : lp :=
  let t := n_tags n in
  Lp None None None (t_pit t) (match n_kind n with KNack h => Some h | _ => None end) None
     (if o_local o then t_inface t else None) None (t_mark t) [] None
     (o_learn o && t_nondisc t) (if o_learn o then t_pa t else None) (Some (n_wire n)).

Section ls.
  (** base interval divided by the square root of a number, generic-link-service.cpp:276-278.  The code computes it in
      floating point, and truncates *)
  Variable root : Z -> N -> Z.
  (** ndn-cxx: the TLV-TYPE of a block; whether the Interest, Data, NackHeader, CachePolicy, PrefixAnnouncement
      in some octets can be parsed: if not, tlv::Error *)
  Variable type_of : list N -> N.
  Variables interest_ok data_ok nack_ok cache_ok pa_ok : list N -> bool.
  (** ndn-cxx Block(span<const uint8_t>), for the reassembler *)
  Variable block : list N -> option (list N).
  (** LpReliability::Options and RttEstimator *)
  Variables (max_retx : N) (idle_period : Z) (loss_threshold : N) (rto : list Z -> Z).

  (** generic-link-service.cpp:243-288 checkCongestionLevel; [q] is the send queue length *)
  Definition check_congestion (q : Z) (p : lp) (s : ls) : lp * ls :=
    if (q <? 0)%Z then (p, s)
    else
      let now := r_now (l_rel s) in
      let seen b := add_check (Check now q (o_thr (l_o s)) (o_base (l_o s)) b) in
      if (o_thr (l_o s) <? q)%Z then
        match l_next s with
        | None => (p, seen false (set_marking (Some (now + o_base (l_o s))%Z) (l_inmark s) s))
        | Some t =>
            if (t <=? now)%Z then
              let n := (l_inmark s + 1)%N in
              (set_mark (Some 1%N) p, seen true (set_k (k_marked1 (l_k s)) (set_marking (Some (t + root (o_base (l_o s)) (n + 1))%Z) n s)))
            else (p, seen false s)
        end
      else
        match l_next s with
        | Some _ => (p, seen false (set_marking None 0 s))
        | None => (p, seen false s)
        end.

  (** generic-link-service.cpp:92-111 sendLpPacket, after the Acks were attached: LpReliability's model logs the
      packet with its Acks *)
  Definition finish (q : Z) (p : lp) (s : ls) : ls :=
    let mtu := effective_mtu (l_o s) (l_tmtu s) in
    let (p1, s1) := if o_mark (l_o s) then check_congestion q p s else (p, s) in
    if negb (mtu =? MTU_UNLIMITED)%Z && (mtu <? Z.of_N (wire_size p1))%Z then set_k (k_over1 (l_k s1)) s1
    else add_out (Handed mtu p1) s1.
  (** several; [q i] is the queue length seen by the i-th of them *)
  Fixpoint finish_each (q : nat -> Z) (l : list lp) (s : ls) : ls :=
    match l with
    | [] => s
    | p :: l' => finish_each (fun i => q (S i)) l' (finish (q 0%nat) p s)
    end.

  (** the packets LpReliability sends in an event, in order *)
  Definition sends (l : list rel_out) : list lp := omap (fun o => match o with OSend p => Some p | _ => None end) l.
  Definition sends_since (old new : rel) : list lp := sends (rev (take (length (r_log new) - length (r_log old)) (r_log new))).
  (** an event of LpReliability: what it sends goes through sendLpPacket *)
  Definition through (q : nat -> Z) (r : rel) (s : ls) : ls := finish_each q (sends_since (l_rel s) r) (set_lrel r s).
  Notation rstep := (rel_step max_retx idle_period loss_threshold rto false).
  Notation rincoming := (process_incoming max_retx idle_period loss_threshold rto false).

  (** generic-link-service.cpp:180-241 sendNetPacket *)
  Definition send_net (q : nat -> Z) (p : lp) (is_interest : bool) (s : ls) : option ls :=
    let o := l_o s in
    match fragment_mtu o (effective_mtu o (l_tmtu s)) with
    | None => None
    | Some mtu =>
        let frags := if o_frag o && negb (mtu =? MTU_UNLIMITED)%Z then fragment_packet (o_maxfrag o) p (Z.to_N mtu) else Some (Some [p]) in
        match frags with
        | None => None
        | Some None => Some (set_k (k_frag_err1 (l_k s)) s)
        | Some (Some l) =>
            match l with
            | [f] => match lp_idx f, lp_cnt f with
                     | None, None =>
                         if o_rel o then
                           let '(last, l1) := assign_sequences (l_last s) l in
                           match rstep (l_rel s) (RlOut l1 p is_interest) with Some r => Some (through q r (set_llast last s)) | None => None end
                         else Some (finish_each q l s)
                     | _, _ => None                                                (* lines 218-219 *)
                     end
            | [] => None                                                           (* frags.front() *)
            | _ =>
                let '(last, l1) := assign_sequences (l_last s) l in
                if o_rel o then
                  match rstep (l_rel s) (RlOut l1 p is_interest) with Some r => Some (through q r (set_llast last s)) | None => None end
                else Some (finish_each q l1 (set_llast last s))
            end
        end
    end.
  (** generic-link-service.cpp:113-138, link-service.cpp:45-76 *)
  Definition send_packet (q : nat -> Z) (n : net_packet) (s : ls) : option ls :=
    send_net q (encode (l_o s) n) (match n_kind n with KInterest => true | _ => false end) s.

  (** What decodeNetPacket does: pass a packet to the forwarder, drop it, or drop it and count it as invalid *)
  Inductive decoded := DPass (n : net_packet) | DDrop | DInvalid.
  (** generic-link-service.cpp:351-403 decodeInterest *)
  Definition decode_interest (o : ls_opts) (net : list N) (p : lp) : decoded :=
    if negb (interest_ok net) then DInvalid
    else if (match lp_nexthop p with Some _ => true | None => false end) && negb (o_local o) then DDrop
    else if match lp_cache p with Some _ => true | None => false end then DInvalid
    else if match lp_pa p with Some _ => true | None => false end then DInvalid
    else DPass (NetPacket KInterest net (Tags None (lp_nexthop p) (lp_mark p) (lp_nondisc p && o_learn o) None (lp_pit p) None)).
  (** generic-link-service.cpp:405-457 decodeData *)
  Definition decode_data (o : ls_opts) (net : list N) (p : lp) : decoded :=
    if negb (data_ok net) then DInvalid
    else match lp_nack p with
    | Some _ => DInvalid
    | None =>
        match lp_nexthop p with
        | Some _ => DInvalid
        | None =>
            if match lp_cache p with Some c => negb (cache_ok c) | None => false end then DInvalid
            else if lp_nondisc p then DInvalid
            else if match lp_pa p with Some a => o_learn o && negb (pa_ok a) | None => false end then DInvalid
            else DPass (NetPacket KData net (Tags None None (lp_mark p) false (if o_learn o then lp_pa p else None) None (lp_cache p)))
        end
    end.
  (** generic-link-service.cpp:459-503 decodeNack *)
  Definition decode_nack (net header : list N) (p : lp) : decoded :=
    if negb (interest_ok net) then DInvalid
    else if negb (nack_ok header) then DInvalid
    else match lp_nexthop p, lp_cache p with
    | None, None =>
        if lp_nondisc p then DInvalid
        else match lp_pa p with
        | Some _ => DInvalid
        | None => DPass (NetPacket (KNack header) net (Tags None None (lp_mark p) false None None None))
        end
    | _, _ => DInvalid
    end.
  (** generic-link-service.cpp:323-349 decodeNetPacket; tlv::Interest and tlv::Data are 5 and 6 *)
  Definition decode (o : ls_opts) (net : list N) (p : lp) : decoded :=
    if (type_of net =? 5)%N then
      match lp_nack p with Some h => decode_nack net h p | None => decode_interest o net p end
    else if (type_of net =? 6)%N then decode_data o net p
    else DInvalid.
  Definition pass (d : decoded) (s : ls) : ls :=
    match d with
    | DPass n => add_up n s
    | DDrop => s
    | DInvalid => set_k (k_net_invalid1 (l_k s)) s
    end.

  (** generic-link-service.cpp:290-321 doReceivePacket; [None] is a block that is no LpPacket *)
  Definition receive (q : nat -> Z) (ep : N) (x : option lp) (s : ls) : option ls :=
    match x with
    | None => Some (set_k (k_lp_invalid1 (l_k s)) s)
    | Some p =>
        let deliver s1 :=
          match lp_frag p with
          | None => Some s1
          | Some _ =>
              if (match lp_idx p, lp_cnt p with None, None => false | _, _ => true end) && negb (o_reasm (l_o s1)) then Some s1
              else match receive_fragment block ep p (l_ra s1) with
                   | None => None
                   | Some (r, RNone) => Some (set_lra r s1)
                   | Some (r, RPacket net first) => Some (pass (decode (l_o s1) net first) (set_lra r s1))
                   | Some (r, RError) => Some (set_k (k_lp_invalid1 (l_k s1)) (set_lra r s1))
                   end
          end in
        if o_rel (l_o s) then
          match rincoming p (l_rel s) with
          | None => None
          | Some (r, true) => deliver (through q r s)
          | Some (r, false) => Some (set_k (k_dup1 (l_k (through q r s))) (through q r s))
          end
        else deliver s
    end.

  (** a network packet is sent, a LpPacket arrives, timers, options or MTU change, time passes *)
  Inductive ls_ev :=
  | LsSend (n : net_packet)
  | LsRecv (ep : N) (x : option lp)
  | LsTimer (tx : N)
  | LsIdle
  | LsGiveUp (key : ra_key)
  | LsOptions (o : ls_opts) (tmtu : Z)
  | LsTick (d : Z).
  Definition ls_step (q : nat -> Z) (s : ls) (e : ls_ev) : option ls :=
    match e with
    | LsSend n => send_packet q n s
    | LsRecv ep x => receive q ep x s
    | LsTimer tx => match rstep (l_rel s) (RlTimer tx) with Some r => Some (through q r s) | None => None end
    | LsIdle => match rstep (l_rel s) RlIdle with Some r => Some (through q r s) | None => None end
    | LsGiveUp key => Some (set_lra (timeout_partial key (l_ra s)) s)
    | LsOptions o m =>                                        (* generic-link-service.cpp:53-60 setOptions *)
        match rstep (l_rel s) (RlEnv 0 (effective_mtu o m) (o_rel o)) with
        | Some r => Some (set_lrel r (set_opts o m s))
        | None => None
        end
    | LsTick d =>
        match rstep (l_rel s) (RlEnv d (effective_mtu (l_o s) (l_tmtu s)) (o_rel (l_o s))) with
        | Some r => Some (set_lra (Ra (ra_now (l_ra s) + d) (ra_max (l_ra s)) (ra_timeout (l_ra s)) (ra_parts (l_ra s))) (set_lrel r s))
        | None => None
        end
    end.
  (** generic-link-service.cpp:42-51; m_lastSeqNo is -2 *)
  Definition ls_new (o : ls_opts) (m : Z) (t : Z) (ra_max : N) (ra_timeout : Z) : ls :=
    Ls o m (rel_new t (effective_mtu o m) (o_rel o)) (ra_new ra_max ra_timeout t) (SEQ - 2) None 0 (Counters 0 0 0 0 0 0) [] [] [].
End ls.
