(** NDNLPv2 packets, fragmentation and reassembly:
    daemon/face/{lp-fragmenter,lp-reassembler}.{hpp,cpp}, and of ndn-cxx what lp::Packet
    encodes.  An octet is an [N]; sizes are unbounded [N], since a packet is never near the size
    of the address space.  [None] is a failed BOOST_ASSERT. *)
From stdpp Require Import gmap.
From Verif Require Import Lib.

(** * Packets *)

(** ndn-cxx lp::Packet: the fields NFD reads or writes.  Nack and CachePolicy hold an encoded
    value; an Ack may occur several times. *)
Record lp := Lp {
  lp_seq : option N;               (* Sequence *)
  lp_idx : option N;               (* FragIndex *)
  lp_cnt : option N;               (* FragCount *)
  lp_pit : option (list N);        (* PitToken *)
  lp_nack : option (list N);       (* Nack *)
  lp_nexthop : option N;           (* NextHopFaceId *)
  lp_inface : option N;            (* IncomingFaceId *)
  lp_cache : option (list N);      (* CachePolicy *)
  lp_mark : option N;              (* CongestionMark *)
  lp_acks : list N;                (* Ack *)
  lp_txseq : option N;             (* TxSequence *)
  lp_nondisc : bool;               (* NonDiscovery *)
  lp_pa : option (list N);         (* PrefixAnnouncement *)
  lp_frag : option (list N);       (* Fragment *)
}.
Definition lp_empty : lp := Lp None None None None None None None None None [] None false None None.
Definition set_seq x p := Lp x (lp_idx p) (lp_cnt p) (lp_pit p) (lp_nack p) (lp_nexthop p) (lp_inface p) (lp_cache p) (lp_mark p) (lp_acks p) (lp_txseq p) (lp_nondisc p) (lp_pa p) (lp_frag p).
Definition set_idx x p := Lp (lp_seq p) x (lp_cnt p) (lp_pit p) (lp_nack p) (lp_nexthop p) (lp_inface p) (lp_cache p) (lp_mark p) (lp_acks p) (lp_txseq p) (lp_nondisc p) (lp_pa p) (lp_frag p).
Definition set_fcnt x p := Lp (lp_seq p) (lp_idx p) x (lp_pit p) (lp_nack p) (lp_nexthop p) (lp_inface p) (lp_cache p) (lp_mark p) (lp_acks p) (lp_txseq p) (lp_nondisc p) (lp_pa p) (lp_frag p).
Definition set_pit x p := Lp (lp_seq p) (lp_idx p) (lp_cnt p) x (lp_nack p) (lp_nexthop p) (lp_inface p) (lp_cache p) (lp_mark p) (lp_acks p) (lp_txseq p) (lp_nondisc p) (lp_pa p) (lp_frag p).
Definition set_nack x p := Lp (lp_seq p) (lp_idx p) (lp_cnt p) (lp_pit p) x (lp_nexthop p) (lp_inface p) (lp_cache p) (lp_mark p) (lp_acks p) (lp_txseq p) (lp_nondisc p) (lp_pa p) (lp_frag p).
Definition set_inface x p := Lp (lp_seq p) (lp_idx p) (lp_cnt p) (lp_pit p) (lp_nack p) (lp_nexthop p) x (lp_cache p) (lp_mark p) (lp_acks p) (lp_txseq p) (lp_nondisc p) (lp_pa p) (lp_frag p).
Definition set_mark x p := Lp (lp_seq p) (lp_idx p) (lp_cnt p) (lp_pit p) (lp_nack p) (lp_nexthop p) (lp_inface p) (lp_cache p) x (lp_acks p) (lp_txseq p) (lp_nondisc p) (lp_pa p) (lp_frag p).
Definition set_acks x p := Lp (lp_seq p) (lp_idx p) (lp_cnt p) (lp_pit p) (lp_nack p) (lp_nexthop p) (lp_inface p) (lp_cache p) (lp_mark p) x (lp_txseq p) (lp_nondisc p) (lp_pa p) (lp_frag p).
Definition set_txseq x p := Lp (lp_seq p) (lp_idx p) (lp_cnt p) (lp_pit p) (lp_nack p) (lp_nexthop p) (lp_inface p) (lp_cache p) (lp_mark p) (lp_acks p) x (lp_nondisc p) (lp_pa p) (lp_frag p).
Definition set_nondisc x p := Lp (lp_seq p) (lp_idx p) (lp_cnt p) (lp_pit p) (lp_nack p) (lp_nexthop p) (lp_inface p) (lp_cache p) (lp_mark p) (lp_acks p) (lp_txseq p) x (lp_pa p) (lp_frag p).
Definition set_pa x p := Lp (lp_seq p) (lp_idx p) (lp_cnt p) (lp_pit p) (lp_nack p) (lp_nexthop p) (lp_inface p) (lp_cache p) (lp_mark p) (lp_acks p) (lp_txseq p) (lp_nondisc p) x (lp_frag p).
Definition set_frag x p := Lp (lp_seq p) (lp_idx p) (lp_cnt p) (lp_pit p) (lp_nack p) (lp_nexthop p) (lp_inface p) (lp_cache p) (lp_mark p) (lp_acks p) (lp_txseq p) (lp_nondisc p) (lp_pa p) x.

(** ndn-cxx tlv::sizeOfVarNumber, tlv::sizeOfNonNegativeInteger *)
Definition var_size (n : N) : N :=
  if (n <? 253)%N then 1 else if (n <=? 65535)%N then 3 else if (n <=? 4294967295)%N then 5 else 9.
Definition nni_size (n : N) : N :=
  if (n <=? 255)%N then 1 else if (n <=? 65535)%N then 2 else if (n <=? 4294967295)%N then 4 else 8.
Definition len (l : list N) : N := N.of_nat (length l).

(** ndn-cxx lp/tlv.hpp *)
Definition T_FRAGMENT : N := 80.
Definition T_SEQUENCE : N := 81.
Definition T_FRAGINDEX : N := 82.
Definition T_FRAGCOUNT : N := 83.
Definition T_PITTOKEN : N := 98.
Definition T_LPPACKET : N := 100.
Definition T_NACK : N := 800.
Definition T_NEXTHOP : N := 816.
Definition T_INFACE : N := 817.
Definition T_CACHE : N := 820.
Definition T_MARK : N := 832.
Definition T_ACK : N := 836.
Definition T_TXSEQ : N := 840.
Definition T_NONDISC : N := 844.
Definition T_PA : N := 848.

(** a TLV element: a string of octets, a NonNegativeInteger, or eight octets *)
Definition tlv_size (t l : N) : N := (var_size t + var_size l + l)%N.
Definition opt_size {A} (f : A -> N) (x : option A) : N := match x with Some a => f a | None => 0 end.
Definition blob_size (t : N) : option (list N) -> N := opt_size (fun l => tlv_size t (len l)).
Definition int_size (t : N) : option N -> N := opt_size (fun n => tlv_size t (nni_size n)).
Definition fix_size (t : N) : option N -> N := opt_size (fun _ => tlv_size t 8).

(** the sizes of the elements other than Fragment *)
Definition hdr_size (p : lp) : N :=
  (fix_size T_SEQUENCE (lp_seq p) + int_size T_FRAGINDEX (lp_idx p) + int_size T_FRAGCOUNT (lp_cnt p)
   + blob_size T_PITTOKEN (lp_pit p) + blob_size T_NACK (lp_nack p) + int_size T_NEXTHOP (lp_nexthop p)
   + int_size T_INFACE (lp_inface p) + blob_size T_CACHE (lp_cache p) + int_size T_MARK (lp_mark p)
   + N.of_nat (length (lp_acks p)) * tlv_size T_ACK 8 + fix_size T_TXSEQ (lp_txseq p)
   + (if lp_nondisc p then tlv_size T_NONDISC 0 else 0) + blob_size T_PA (lp_pa p))%N.
(** ndn-cxx lp::Packet::wireEncode().size(): a packet of a Fragment alone is encoded as the bare
    network packet *)
Definition lp_bare (p : lp) : bool := (hdr_size p =? 0)%N && match lp_frag p with Some _ => true | None => false end.
Definition wire_size (p : lp) : N :=
  match lp_frag p with
  | Some l => if (hdr_size p =? 0)%N then len l else tlv_size T_LPPACKET (hdr_size p + tlv_size T_FRAGMENT (len l))
  | None => tlv_size T_LPPACKET (hdr_size p)
  end.

(** lp::Sequence is a uint64_t *)
Definition SEQ : N := 18446744073709551616.
Definition seq_next (n : N) : N := ((n + 1) mod SEQ)%N.
Definition seq_sub (a b : N) : N := ((a + SEQ - b mod SEQ) mod SEQ)%N.

(** * Fragmenter *)

(** lp-fragmenter.cpp:43-57 *)
Definition MAX_SINGLE_FRAG_OVERHEAD : N := 1 + 9 + (1 + 1 + 8) + (1 + 9).
Definition MAX_FRAG_OVERHEAD : N := 1 + 9 + (1 + 1 + 8) + (1 + 1 + 8) + (1 + 1 + 8) + (1 + 9).

(** lp-fragmenter.cpp:106-124: the loop.  [first] is the packet to copy fields from for this
    fragment: the whole packet for the first one, an empty one for the others *)
Fixpoint fill (n : nat) (first : lp) (index count payload mtu : N) (begin_len : N) (rest : list N) : option (list lp) :=
  match rest with
  | [] => if (index =? count)%N then Some [] else None                            (* line 121 *)
  | _ =>
      match n with
      | O => None                                                                  (* past the end of frags *)
      | S n' =>
          let q := set_frag (Some (take (N.to_nat begin_len) rest)) (set_fcnt (Some count) (set_idx (Some index) first)) in
          if (mtu <? wire_size q)%N then None                                      (* line 115 *)
          else
            match fill n' lp_empty (index + 1) count payload mtu payload (drop (N.to_nat begin_len) rest) with
            | Some l => Some (q :: l)
            | None => None
            end
      end
  end.

(** lp-fragmenter.cpp:62-124 fragmentPacket; [Some None] is {false, {}} *)
Definition fragment_packet (max : N) (p : lp) (mtu : N) : option (option (list lp)) :=
  match lp_frag p, lp_idx p, lp_cnt p with
  | Some net, None, None =>
      if (MAX_SINGLE_FRAG_OVERHEAD + wire_size p <=? mtu)%N then Some (Some [p])
      else
        let first_hdr := hdr_size p in
        if (mtu <? MAX_FRAG_OVERHEAD + first_hdr + 1)%N then Some None
        else
          let first_payload := N.min (len net) (mtu - first_hdr - MAX_FRAG_OVERHEAD) in
          let payload := (mtu - MAX_FRAG_OVERHEAD)%N in
          let rest := (len net - first_payload)%N in
          let count := (1 + rest / payload + if (rest mod payload =? 0)%N then 0 else 1)%N in
          if (max <? count)%N then Some None
          else Some <$> fill (N.to_nat count) p 0 count payload mtu first_payload net
  | _, _, _ => None
  end.

(** generic-link-service.cpp:140-146 assignSequences *)
Fixpoint assign_sequences (last : N) (l : list lp) : N * list lp :=
  match l with
  | [] => (last, [])
  | p :: l' => let (last', r) := assign_sequences (seq_next last) l' in
               (last', set_seq (Some (seq_next last)) p :: r)
  end.

(** * Reassembler *)

(** lp-reassembler.hpp:123-129 PartialPacket; the timer is when it fires *)
Record partial := Partial { pp_count : N; pp_recv : N; pp_frags : list (option lp); pp_timer : option Z }.
(** lp-reassembler.hpp:134-148; an EndpointId is a number *)
Notation ra_key := (N * N)%type.
Record ra := Ra { ra_now : Z; ra_max : N; ra_timeout : Z; ra_parts : gmap (N * N) partial }.
Definition set_parts l s := Ra (ra_now s) (ra_max s) (ra_timeout s) l.

(** what receiveFragment returns: nothing, a network packet and the first fragment, or tlv::Error
    is thrown *)
Inductive ra_out := RNone | RPacket (net : list N) (first : lp) | RError.

Section reassembler.
  (** ndn-cxx Block(span<const uint8_t>): the TLV at the start of some octets, or tlv::Error *)
  Variable block : list N -> option (list N).

  (** lp-reassembler.cpp:116-136 doReassembly; None is a slot without a Fragment *)
  Fixpoint join (l : list (option lp)) : option (list N) :=
    match l with
    | [] => Some []
    | Some p :: l' => match lp_frag p, join l' with Some x, Some r => Some (x ++ r) | _, _ => None end
    | None :: _ => None
    end.

  (** lp-reassembler.cpp:44-113 receiveFragment *)
  Definition receive_fragment (ep : N) (p : lp) (s : ra) : option (ra * ra_out) :=
    match lp_frag p with
    | None => None
    | Some net =>
        let index := match lp_idx p with Some i => i | None => 0%N end in
        let count := match lp_cnt p with Some c => c | None => 1%N end in
        if (count <=? index)%N then Some (s, RNone)
        else if (ra_max s <? count)%N then Some (s, RNone)
        else if (index =? 0)%N && (count =? 1)%N
        then Some (s, match block net with Some b => RPacket b p | None => RError end)
        else
          match lp_seq p with
          | None => Some (s, RNone)
          | Some seq =>
              let key := (ep, seq_sub seq index) in
              let pp := match ra_parts s !! key with
                        | Some pp => pp
                        | None => Partial count 0 (replicate (N.to_nat count) None) None
                        end in
              if negb (count =? pp_count pp)%N then Some (s, RNone)
              else
                match pp_frags pp !! N.to_nat index with
                | None => None
                | Some (Some q) => Some (s, RNone)      (* a stored fragment has a Sequence *)
                | Some None =>
                    let pp1 := Partial (pp_count pp) (pp_recv pp + 1) (<[N.to_nat index := Some p]> (pp_frags pp)) (pp_timer pp) in
                    if (pp_recv pp1 =? pp_count pp1)%N then
                      match join (pp_frags pp1), pp_frags pp1 with
                      | Some l, Some first :: _ =>
                          match block l with
                          | Some b => Some (set_parts (delete key (ra_parts s)) s, RPacket b first)
                          | None => Some (set_parts (<[key := pp1]> (ra_parts s)) s, RError)
                          end
                      | _, _ => None
                      end
                    else
                      let pp2 := Partial (pp_count pp1) (pp_recv pp1) (pp_frags pp1) (Some (ra_now s + ra_timeout s)%Z) in
                      Some (set_parts (<[key := pp2]> (ra_parts s)) s, RNone)
                end
          end
    end.

  (** lp-reassembler.cpp:138-148 timeoutPartialPacket *)
  Definition timeout_partial (key : ra_key) (s : ra) : ra := set_parts (delete key (ra_parts s)) s.

  (** a LpPacket with a Fragment arrives, a drop timer fires, setOptions, time passes *)
  Inductive ra_ev :=
  | RaRecv (ep : N) (p : lp)
  | RaTimer (key : ra_key)
  | RaOptions (max : N) (timeout : Z)
  | RaTick (d : Z).
  Definition ra_step (s : ra) (e : ra_ev) : option (ra * ra_out) :=
    match e with
    | RaRecv ep p => receive_fragment ep p s
    | RaTimer key => Some (timeout_partial key s, RNone)
    | RaOptions m t => Some (Ra (ra_now s) m t (ra_parts s), RNone)
    | RaTick d => Some (Ra (ra_now s + d) (ra_max s) (ra_timeout s) (ra_parts s), RNone)
    end.
  Fixpoint ra_run (s : ra) (evs : list ra_ev) : option (ra * list ra_out) :=
    match evs with
    | [] => Some (s, [])
    | e :: evs' =>
        match ra_step s e with
        | Some (s1, o) => match ra_run s1 evs' with Some (s2, os) => Some (s2, o :: os) | None => None end
        | None => None
        end
    end.
  (** lp-reassembler.hpp:49-62, lp-reassembler.cpp:38-42 *)
  Definition ra_new (max : N) (timeout : Z) (t : Z) : ra := Ra t max timeout ∅.
End reassembler.
