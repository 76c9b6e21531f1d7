(** Link reliability: daemon/face/lp-reliability.{hpp,cpp}.

    [None] is a failed BOOST_ASSERT, std::length_error, the use of an invalid iterator or a loop
    that does not end.  An iterator of m_unackedFrags is the key it points to.  A NetPkt, which fragments share,
    has a number; it is in [r_nets] as long as a fragment refers to it. *)
From stdpp Require Import gmap.
From Verif Require Import Lib Lp_Model.

(** lp-reliability.hpp:201-219 UnackedFrag; the timer is when it fires *)
Record unacked := Unacked { ua_pkt : lp; ua_timer : option Z; ua_sent : Z; ua_retx : N; ua_greater : N; ua_net : nat }.
(** lp-reliability.hpp:224-239 NetPkt *)
Record netpkt := NetPkt { np_frags : list N; np_pkt : lp; np_interest : bool; np_retx : bool }.

(** what happens: a LpPacket is passed on to be sent; the fate of a network packet (the three
    counters); the fragment of a network packet with some Sequence gets a TxSequence, again or for the first
    time; the Ack of an outstanding fragment arrives; onDroppedInterest *)
Inductive fate := Acknowledged | Retransmitted | Exhausted.
Inductive rel_out :=
| OSend (p : lp)
| OFate (id : nat) (x : fate)
| OTx (id : nat) (seq tx : N) (again : bool)
| OAck (tx : N)
| ODropped (p : lp).

(** a received Sequence: when, the RTO at that time, whether it was reported as a duplicate *)
Record rx := Rx { rx_seq : N; rx_time : Z; rx_rto : Z; rx_dup : bool }.

(** lp-reliability.hpp:241-258; [r_log] and [r_rx] are the histories, newest first; [r_mtu] is the link service's effective MTU, [r_enabled] the option
    isEnabled *)
Record rel := Rel {
  r_now : Z; r_mtu : Z; r_enabled : bool;
  r_unacked : gmap N unacked; r_first : option N; r_last : N;
  r_acks : list N; r_recent : gmap N Z; r_queue : list N; r_idle : option Z; r_rtt : list Z;
  r_nets : gmap nat netpkt; r_next : nat; r_log : list rel_out; r_rx : list rx }.
Definition set_unacked x s := Rel (r_now s) (r_mtu s) (r_enabled s) x (r_first s) (r_last s) (r_acks s) (r_recent s) (r_queue s) (r_idle s) (r_rtt s) (r_nets s) (r_next s) (r_log s) (r_rx s).
Definition set_first x s := Rel (r_now s) (r_mtu s) (r_enabled s) (r_unacked s) x (r_last s) (r_acks s) (r_recent s) (r_queue s) (r_idle s) (r_rtt s) (r_nets s) (r_next s) (r_log s) (r_rx s).
Definition set_last x s := Rel (r_now s) (r_mtu s) (r_enabled s) (r_unacked s) (r_first s) x (r_acks s) (r_recent s) (r_queue s) (r_idle s) (r_rtt s) (r_nets s) (r_next s) (r_log s) (r_rx s).
Definition set_rel_acks x s := Rel (r_now s) (r_mtu s) (r_enabled s) (r_unacked s) (r_first s) (r_last s) x (r_recent s) (r_queue s) (r_idle s) (r_rtt s) (r_nets s) (r_next s) (r_log s) (r_rx s).
Definition set_recent x q s := Rel (r_now s) (r_mtu s) (r_enabled s) (r_unacked s) (r_first s) (r_last s) (r_acks s) x q (r_idle s) (r_rtt s) (r_nets s) (r_next s) (r_log s) (r_rx s).
Definition set_idle x s := Rel (r_now s) (r_mtu s) (r_enabled s) (r_unacked s) (r_first s) (r_last s) (r_acks s) (r_recent s) (r_queue s) x (r_rtt s) (r_nets s) (r_next s) (r_log s) (r_rx s).
Definition set_rtt x s := Rel (r_now s) (r_mtu s) (r_enabled s) (r_unacked s) (r_first s) (r_last s) (r_acks s) (r_recent s) (r_queue s) (r_idle s) x (r_nets s) (r_next s) (r_log s) (r_rx s).
Definition set_nets x s := Rel (r_now s) (r_mtu s) (r_enabled s) (r_unacked s) (r_first s) (r_last s) (r_acks s) (r_recent s) (r_queue s) (r_idle s) (r_rtt s) x (r_next s) (r_log s) (r_rx s).
Definition set_next x s := Rel (r_now s) (r_mtu s) (r_enabled s) (r_unacked s) (r_first s) (r_last s) (r_acks s) (r_recent s) (r_queue s) (r_idle s) (r_rtt s) (r_nets s) x (r_log s) (r_rx s).
Definition log (o : rel_out) s := Rel (r_now s) (r_mtu s) (r_enabled s) (r_unacked s) (r_first s) (r_last s) (r_acks s) (r_recent s) (r_queue s) (r_idle s) (r_rtt s) (r_nets s) (r_next s) (o :: r_log s) (r_rx s).
Definition set_rx x s := Rel (r_now s) (r_mtu s) (r_enabled s) (r_unacked s) (r_first s) (r_last s) (r_acks s) (r_recent s) (r_queue s) (r_idle s) (r_rtt s) (r_nets s) (r_next s) (r_log s) x.
Definition set_env t m b s := Rel t m b (r_unacked s) (r_first s) (r_last s) (r_acks s) (r_recent s) (r_queue s) (r_idle s) (r_rtt s) (r_nets s) (r_next s) (r_log s) (r_rx s).

(** ndn-cxx MAX_NDN_PACKET_SIZE; transport.hpp:101 *)
Definition MAX_NDN_PACKET_SIZE : Z := 8800.
Definition MTU_UNLIMITED : Z := -1.
(** lp-reliability.cpp:204-206: the size of an Ack *)
Definition ACK_SIZE : Z := 12.

(** lp-reliability.cpp:187-218 piggyback: the packet with Acks, the Acks that are left *)
Fixpoint take_acks (room : Z) (acks : list N) : list N * list N :=
  match acks with
  | [] => ([], [])
  | a :: acks' => if (room <? ACK_SIZE)%Z then ([], acks)
                  else let (x, y) := take_acks (room - ACK_SIZE) acks' in (a :: x, y)
  end.
Definition piggyback (mtu : Z) (p : lp) (acks : list N) : option (lp * list N) :=
  if lp_bare p then None                                          (* line 191 *)
  else
    let size := Z.of_N (wire_size p) in
    let reserved := (Z.of_N (var_size 8800) - Z.of_N (var_size (wire_size p)))%Z in
    let room := ((if (mtu =? MTU_UNLIMITED)%Z then MAX_NDN_PACKET_SIZE else mtu) - reserved - size)%Z in
    let (x, y) := take_acks room acks in
    Some (set_acks (lp_acks p ++ x) p, y).

(** the iteration order of m_unackedFrags from a key on, going round *)
Definition keys_from (k : N) (m : gmap N unacked) : list N :=
  let ks := merge_sort N.le (elements (dom m)) in
  List.filter (fun x => (k <=? x)%N) ks ++ List.filter (fun x => (x <? k)%N) ks.

(** lp-reliability.cpp:369-390 deleteUnackedFrag *)
Definition delete_unacked (tx : N) (s : rel) : option rel :=
  match r_first s, r_unacked s !! tx with
  | Some f, Some _ =>
      match r_unacked s !! f with
      | None => None
      | Some _ =>
          let m := delete tx (r_unacked s) in
          let s1 := set_unacked m s in
          if decide (m = ∅) then Some (set_first None s1)
          else if (f =? tx)%N then Some (set_first (head (keys_from tx m)) s1)
          else Some s1
      end
  | _, _ => None
  end.
Fixpoint delete_each (l : list N) (s : rel) : option rel :=
  match l with
  | [] => Some s
  | x :: l' => match delete_unacked x s with Some s1 => delete_each l' s1 | None => None end
  end.

(** lp-reliability.cpp:220-229 assignTxSequence *)
Definition assign_tx (s : rel) : option (rel * N) :=
  let tx := seq_next (r_last s) in
  if decide (r_unacked s = ∅) then Some (set_last tx s, tx)
  else match r_first s with
       | None => None
       | Some f => if (tx =? f)%N then None else Some (set_last tx s, tx)
       end.

Section rel.
  (** Options::maxRetx, idleAckTimerPeriod, seqNumLossThreshold *)
  Variables (max_retx : N) (idle_period : Z) (loss_threshold : N).
  (** ndn::util::RttEstimator: the estimated RTO after some measurements *)
  Variable rto : list Z -> Z.
  (** whether TRACE messages are logged *)
  Variable trace : bool.

  (** GenericLinkService::sendLpPacket (generic-link-service.cpp:92-111), up to the part that is
      about reliability *)
  Definition send_lp (p : lp) (s : rel) : option rel :=
    if r_enabled s then
      match piggyback (r_mtu s) p (r_acks s) with
      | Some (p', acks) => Some (log (OSend p') (set_rel_acks acks s))
      | None => None
      end
    else Some (log (OSend p) s).

  (** lp-reliability.cpp:62-99 handleOutgoing, for one fragment *)
  Definition out_frag (id : nat) (frag : lp) (s : rel) : option (rel * lp) :=
    match lp_seq frag with
    | None => None
    | Some seq =>
        match assign_tx s with
        | None => None
        | Some (s1, tx) =>
            let frag1 := set_txseq (Some tx) frag in
            let u := match r_unacked s1 !! tx with
                     | Some u => Unacked (ua_pkt u) (Some (r_now s + rto (r_rtt s))%Z) (r_now s) (ua_retx u) (ua_greater u) id
                     | None => Unacked frag1 (Some (r_now s + rto (r_rtt s))%Z) (r_now s) 0 0 id
                     end in
            let m := <[tx := u]> (r_unacked s1) in
            let s2 := set_unacked m s1 in
            let s3 := if decide (size m = 1%nat) then set_first (Some tx) s2 else s2 in
            match r_nets s3 !! id with
            | Some np => Some (log (OTx id seq tx false) (set_nets (<[id := NetPkt (np_frags np ++ [tx]) (np_pkt np) (np_interest np) (np_retx np)]> (r_nets s3)) s3), frag1)
            | None => None
            end
        end
    end.
  Fixpoint out_frags (id : nat) (frags : list lp) (s : rel) : option (rel * list lp) :=
    match frags with
    | [] => Some (s, [])
    | f :: frags' =>
        match out_frag id f s with
        | Some (s1, f1) => match out_frags id frags' s1 with Some (s2, l) => Some (s2, f1 :: l) | None => None end
        | None => None
        end
    end.
  Definition handle_outgoing (frags : list lp) (pkt : lp) (is_interest : bool) (s : rel) : option (rel * list lp) :=
    if r_enabled s then
      let id := r_next s in
      out_frags id frags (set_next (S id) (set_nets (<[id := NetPkt [] pkt is_interest false]> (r_nets s)) s))
    else None.

  (** lp-reliability.cpp:250-277 findLostLpPackets *)
  Fixpoint until (k : N) (l : list N) : list N :=
    match l with [] => [] | x :: l' => if (x =? k)%N then [] else x :: until k l' end.
  Definition bump (k : N) (m : gmap N unacked) : gmap N unacked :=
    alter (fun u => Unacked (ua_pkt u) (ua_timer u) (ua_sent u) (ua_retx u) (ua_greater u + 1) (ua_net u)) k m.
  Definition find_lost (ack : N) (s : rel) : option (rel * list N) :=
    match r_first s with
    | None => None
    | Some f =>
        let before := until ack (keys_from f (r_unacked s)) in
        let m := foldr bump (r_unacked s) before in
        Some (set_unacked m s,
              List.filter (fun k => match m !! k with Some u => (loss_threshold <=? ua_greater u)%N | None => false end) before)
    end.

  (** lp-reliability.cpp:279-345 onLpPacketLost: the TxSequences removed *)
  Definition on_lost (tx : N) (s : rel) : option (rel * list N) :=
    match r_unacked s !! tx with
    | None => None
    | Some u =>
        match r_nets s !! ua_net u, lp_seq (ua_pkt u) with
        | Some np, Some seq =>
            if (max_retx <=? ua_retx u)%N then
              let others := List.filter (fun k => negb (k =? tx)%N) (np_frags np) in
              match delete_each others s with
              | None => None
              | Some s1 =>
                  let s2 := log (OFate (ua_net u) Exhausted) s1 in
                  let s3 := if np_interest np then log (ODropped (np_pkt np)) s2 else s2 in
                  match delete_unacked tx s3 with
                  | Some s4 => Some (set_nets (delete (ua_net u) (r_nets s4)) s4, others ++ [tx])
                  | None => None
                  end
              end
            else
              match assign_tx s with
              | None => None
              | Some (s1, new) =>
                  let pkt := set_txseq (Some new) (ua_pkt u) in
                  match r_unacked s1 !! new with
                  | Some _ => None                                   (* try_emplace would not insert *)
                  | None =>
                      (* the timer starts after sending, at the same time *)
                      let nu := Unacked pkt (Some (r_now s + rto (r_rtt s))%Z) (r_now s) (ua_retx u + 1) 0 (ua_net u) in
                      let s2 := set_unacked (<[new := nu]> (r_unacked s1)) s1 in
                      match list_find (fun k => k = tx) (np_frags np) with
                      | None => None                                 (* line 326 *)
                      | Some (i, _) =>
                          let s3 := set_nets (<[ua_net u := NetPkt (<[i := new]> (np_frags np)) (np_pkt np) (np_interest np) true]> (r_nets s2)) s2 in
                          match delete_unacked tx s3 with
                          | None => None
                          | Some s4 =>
                              match send_lp pkt (log (OTx (ua_net u) seq new true) s4) with
                              | Some s5 => if trace then None        (* line 337 reads the erased fragment *)
                                           else Some (s5, [tx])
                              | None => None
                              end
                          end
                      end
                  end
              end
        | _, _ => None
        end
    end.

  (** lp-reliability.cpp:347-367 onLpPacketAcknowledged *)
  Definition on_acked (tx : N) (s : rel) : option rel :=
    match r_unacked s !! tx with
    | None => None
    | Some u =>
        match r_nets s !! ua_net u with
        | None => None
        | Some np =>
            match list_find (fun k => k = tx) (np_frags np), last (np_frags np) with
            | Some (i, _), Some b =>
                let l := removelast (<[i := b]> (np_frags np)) in
                let s1 := match l with
                          | [] => log (OFate (ua_net u) (if np_retx np then Retransmitted else Acknowledged))
                                    (set_nets (delete (ua_net u) (r_nets s)) s)
                          | _ => set_nets (<[ua_net u := NetPkt l (np_pkt np) (np_interest np) (np_retx np)]> (r_nets s)) s
                          end in
                delete_unacked tx s1
            | _, _ => None
            end
        end
    end.

  (** lp-reliability.cpp:110-156: the Acks of an incoming packet *)
  Fixpoint lose_each (l removed : list N) (s : rel) : option rel :=
    match l with
    | [] => Some s
    | x :: l' =>
        if decide (x ∈ removed) then lose_each l' removed s
        else match on_lost x s with
             | Some (s1, r) => lose_each l' (removed ++ r) s1
             | None => None
             end
    end.
  Definition on_ack (ack : N) (s : rel) : option rel :=
    match r_unacked s !! ack with
    | None => Some s
    | Some u =>
        (* the RTO timer is cancelled; the fragment goes below *)
        let s1 := if (ua_retx u =? 0)%N then set_rtt ((r_now s - ua_sent u)%Z :: r_rtt s) s else s in
        match find_lost ack (log (OAck ack) s1) with
        | None => None
        | Some (s2, lost) => match on_acked ack s2 with Some s3 => lose_each lost [] s3 | None => None end
        end
    end.
  Fixpoint on_acks (l : list N) (s : rel) : option rel :=
    match l with
    | [] => Some s
    | a :: l' => match on_ack a s with Some s1 => on_acks l' s1 | None => None end
    end.

  (** lp-reliability.cpp:168-178: forget old Sequences.  operator[] of a Sequence that is not there inserts
      the epoch of the clock *)
  Fixpoint purge (t r : Z) (m : gmap N Z) (q : list N) : gmap N Z * list N :=
    match q with
    | [] => (m, [])
    | x :: q' =>
        let z := match m !! x with Some z => z | None => 0%Z end in
        if (z + r <? t)%Z then purge t r (delete x m) q' else (<[x := z]> m, q)
    end.

  (** lp-reliability.cpp:101-185 processIncomingPacket: whether the packet is new *)
  Definition process_incoming (p : lp) (s : rel) : option (rel * bool) :=
    if negb (r_enabled s) then None
    else
      match on_acks (lp_acks p) s with
      | None => None
      | Some s1 =>
          match lp_frag p, lp_txseq p with
          | Some _, Some tx =>
              let s2 := set_rel_acks (r_acks s1 ++ [tx]) s1 in
              let (s3, dup) :=
                match lp_seq p with
                | None => (s2, false)
                | Some sq =>
                    let dup := match r_recent s2 !! sq with Some _ => true | None => false end in
                    let (m, q) := purge (r_now s2) (rto (r_rtt s2)) (r_recent s2) (r_queue s2) in
                    let m1 := match m !! sq with Some _ => m | None => <[sq := r_now s2]> m end in
                    (set_rx (Rx sq (r_now s2) (rto (r_rtt s2)) dup :: r_rx s2) (set_recent m1 (q ++ [sq]) s2), dup)
                end in
              (* startIdleAckTimer, lp-reliability.cpp:231-248 *)
              let s4 := match r_idle s3 with Some _ => s3 | None => set_idle (Some (r_now s3 + idle_period)%Z) s3 end in
              Some (s4, negb dup)
          | _, _ => Some (s1, true)
          end
      end.

  (** lp-reliability.cpp:239-247: the idle timer fires *)
  Fixpoint idle_loop (n : nat) (s : rel) : option rel :=
    match r_acks s with
    | [] => Some s
    | _ => match n with
           | O => None
           | S n' => match send_lp lp_empty s with Some s1 => idle_loop n' s1 | None => None end
           end
    end.
  Definition on_idle (s : rel) : option rel := let s1 := set_idle None s in idle_loop (length (r_acks s1)) s1.

  (** * Events *)
  Inductive rel_ev :=
  | RlOut (frags : list lp) (pkt : lp) (is_interest : bool)     (* a network packet is sent *)
  | RlIn (p : lp)                                               (* a LpPacket arrives *)
  | RlTimer (tx : N)                                            (* the RTO timer of a fragment *)
  | RlIdle                                                      (* the idle Ack timer *)
  | RlEnv (d : Z) (mtu : Z) (enabled : bool).                   (* time passes, setOptions *)
  (** generic-link-service.cpp:209-221: fragments are registered, then sent *)
  Fixpoint send_each (l : list lp) (s : rel) : option rel :=
    match l with
    | [] => Some s
    | p :: l' => match send_lp p s with Some s1 => send_each l' s1 | None => None end
    end.
  Definition rel_step (s : rel) (e : rel_ev) : option rel :=
    match e with
    | RlOut frags pkt i => match handle_outgoing frags pkt i s with Some (s1, l) => send_each l s1 | None => None end
    | RlIn p => fst <$> process_incoming p s
    | RlTimer tx => fst <$> on_lost tx s
    | RlIdle => on_idle s
    | RlEnv d m b =>
        (* lp-reliability.cpp:49-59 setOptions cancels the idle timer when reliability is turned off *)
        let s1 := if r_enabled s && negb b then set_idle None s else s in
        Some (set_env (r_now s + d)%Z m b s1)
    end.
  (** lp-reliability.cpp:39-47 *)
  Definition rel_new (t m : Z) (b : bool) : rel := Rel t m b ∅ None (SEQ - 1) [] ∅ [] None [] ∅ 0 [] [].
End rel.
