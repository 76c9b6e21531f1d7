(** What link reliability promises, in terms of what it logs: which fragments get which TxSequence, which
    Acks arrive, and the fate of each network packet. *)
From stdpp Require Import gmap.
From Verif Require Import Lib Lp_Model Rel_Model.

(** * Histories *)
Definition min_mtu (m : Z) : Prop := m = MTU_UNLIMITED \/ (16 <= m)%Z.
(** events that can happen: fragments carry distinct Sequences; timers fire when they are due *)
Definition rel_ok (s : rel) (e : rel_ev) : Prop :=
  match e with
  | RlOut frags pkt i =>
      r_enabled s = true /\ frags <> [] /\ (forall p, p ∈ frags -> is_Some (lp_seq p)) /\ NoDup (map lp_seq frags)
  | RlIn p => r_enabled s = true
  | RlTimer tx => exists u t, r_unacked s !! tx = Some u /\ ua_timer u = Some t /\ (t <= r_now s)%Z
  | RlIdle => exists t, r_idle s = Some t /\ (t <= r_now s)%Z
  | RlEnv d m b => (0 <= d)%Z /\ min_mtu m
  end.
Section hist.
  Variables (max_retx : N) (idle : Z) (thr : N) (rto : list Z -> Z).
  Inductive rel_hist : rel -> list rel_ev -> rel -> Prop :=
  | rh_nil s : rel_hist s [] s
  | rh_snoc s0 l s e s' :
      rel_hist s0 l s -> rel_ok s e -> rel_step max_retx idle thr rto false s e = Some s' -> rel_hist s0 (l ++ [e]) s'.
  Definition reached (s : rel) : Prop := exists t m b l, min_mtu m /\ rel_hist (rel_new t m b) l s.
End hist.

(** * Observations; the log has the newest entry first *)
(** the fragment of network packet [id] with Sequence [seq] has been transmitted, given a TxSequence *)
Definition transmitted (id : nat) (seq : N) (s : rel) : Prop := exists tx again, OTx id seq tx again ∈ r_log s.
Definition is_retx (id : nat) (seq : N) (o : rel_out) : bool :=
  match o with OTx i q _ true => (i =? id)%nat && (q =? seq)%N | _ => false end.
(** how often it has been retransmitted *)
Definition retransmissions (id : nat) (seq : N) (l : list rel_out) : N := N.of_nat (length (List.filter (is_retx id seq) l)).
(** it was given TxSequence [tx], which no fragment has been given since *)
Definition current (id : nat) (seq tx : N) (l : list rel_out) : Prop :=
  exists again l1 l2, l = l1 ++ OTx id seq tx again :: l2 /\ forall i q b, OTx i q tx b ∉ l1.
(** an Ack of its current TxSequence arrived *)
Definition acked (id : nat) (seq : N) (l : list rel_out) : Prop :=
  exists tx l1 l2, l = l1 ++ OAck tx :: l2 /\ current id seq tx l2.
Definition is_fate (id : nat) (o : rel_out) : bool := match o with OFate i _ => (i =? id)%nat | _ => false end.
Definition fates (id : nat) (l : list rel_out) : list rel_out := List.filter (is_fate id) l.
(** a fragment of network packet [id] is outstanding *)
Definition outstanding (id : nat) (s : rel) : Prop := exists tx u, r_unacked s !! tx = Some u /\ ua_net u = id.

(** how many TxSequences lie between the oldest outstanding one and the last one assigned *)
Definition span (s : rel) : N := match r_first s with None => 0 | Some f => seq_sub (r_last s) f + 1 end.
(** an upper bound on the TxSequences an event assigns *)
Definition cost (s : rel) (e : rel_ev) : N :=
  match e with
  | RlOut frags _ _ => N.of_nat (length frags)
  | RlIn p => N.of_nat (length (lp_acks p) * size (r_unacked s))
  | RlTimer _ => 1
  | _ => 0
  end.

(** * Acknowledgements of received fragments *)
(** the TxSequences of the LpPackets with a Fragment received so far, oldest first *)
Fixpoint to_ack (l : list rel_ev) : list N :=
  match l with
  | [] => []
  | RlIn p :: l' => match lp_frag p, lp_txseq p with Some _, Some tx => [tx] | _, _ => [] end ++ to_ack l'
  | _ :: l' => to_ack l'
  end.
(** the Acks in the LpPackets sent so far, oldest first *)
Fixpoint acks_sent (l : list rel_out) : list N :=
  match l with
  | [] => []
  | OSend p :: l' => acks_sent l' ++ lp_acks p
  | _ :: l' => acks_sent l'
  end.
(** packets given to be sent carry no Acks *)
Definition no_acks (e : rel_ev) : Prop := match e with RlOut frags _ _ => forall p, p ∈ frags -> lp_acks p = [] | _ => True end.

(** * Losses *)
(** [TxSequence] k was sent before a, among the outstanding ones *)
Definition before (s : rel) (k a : N) : Prop :=
  match r_first s with Some f => (seq_sub k f < seq_sub a f)%N | None => False end.
Global Instance before_dec s k a : Decision (before s k a).
Proof. unfold before. destruct (r_first s); apply _. Defined.
(** what becomes of a lost fragment [u], which had TxSequence [tx]: [L] is what is logged *)
Definition resent (t r : Z) (s s' : rel) (tx : N) (u : unacked) (L : list rel_out) : Prop :=
  exists seq new p', lp_seq (ua_pkt u) = Some seq /\ r_unacked s !! new = None /\
    L = [OSend p'; OTx (ua_net u) seq new true] /\
    set_acks [] p' = set_acks [] (set_txseq (Some new) (ua_pkt u)) /\
    forall k v, r_unacked s' !! k = Some v <->
      (k = new /\ v = Unacked (set_txseq (Some new) (ua_pkt u)) (Some (t + r)%Z) t (ua_retx u + 1) 0 (ua_net u)) \/
      (k <> tx /\ r_unacked s !! k = Some v).
Definition given_up (s s' : rel) (u : unacked) (L : list rel_out) : Prop :=
  exists np, r_nets s !! ua_net u = Some np /\
    L = (if np_interest np then [ODropped (np_pkt np)] else []) ++ [OFate (ua_net u) Exhausted] /\
    forall k v, r_unacked s' !! k = Some v <-> r_unacked s !! k = Some v /\ ua_net v <> ua_net u.
(** its count of Acks of later TxSequences, after the Ack of a *)
Definition bumped (s : rel) (a k : N) (u : unacked) : unacked :=
  if decide (before s k a) then Unacked (ua_pkt u) (ua_timer u) (ua_sent u) (ua_retx u) (ua_greater u + 1) (ua_net u) else u.

(** * Sending *)
(** the fragments [frags] of packet [id], sent at time [t] with TxSequences [txs] *)
Definition tagged (frags : list lp) (txs : list N) : list lp := zip_with (fun p tx => set_txseq (Some tx) p) frags txs.
Definition first_sent (t r : Z) (id : nat) (frags : list lp) (txs : list N) : gmap N unacked :=
  list_to_map (zip txs ((fun p => Unacked p (Some (t + r)%Z) t 0 0 id) <$> tagged frags txs)).
Definition first_logged (id : nat) (frags : list lp) (txs : list N) : list rel_out :=
  rev (zip_with (fun p tx => OTx id (default 0%N (lp_seq p)) tx false) frags txs).
