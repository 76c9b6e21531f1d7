(** What fragments of a packet are, and what a reassembler has received. *)
From stdpp Require Import gmap.
From Verif Require Import Lib Lp_Model.

(** the fields of a packet that fragmentation does not write *)
Definition other_fields (p : lp) : lp := set_idx None (set_fcnt None (set_frag None p)).

(** [l] are fragments of [p], which carries the network packet [net]: numbered from 0, each with
    the number of fragments, the other fields on the first and nothing else on the others, and
    non-empty pieces that make up the network packet *)
Record fragments (p : lp) (net : list N) (l : list lp) : Prop := {
  fr_number : forall i q, l !! i = Some q -> lp_idx q = Some (N.of_nat i) /\ lp_cnt q = Some (N.of_nat (length l));
  fr_first : forall q, l !! 0%nat = Some q -> other_fields q = other_fields p;
  fr_rest : forall i q, l !! S i = Some q -> other_fields q = lp_empty;
  fr_pieces : exists pieces, map lp_frag l = map Some pieces /\ concat pieces = net /\ forall x, x ∈ pieces -> x <> [];
}.

(** what a network packet of [n] octets needs: [k] fragments of at most [room] octets, of which
    the first has [hdr] octets of other fields *)
Definition enough (k room hdr n : N) : Prop := (1 <= k /\ n + hdr <= k * room)%N.
Definition least (P : N -> Prop) (k : N) : Prop := P k /\ forall j, P j -> (k <= j)%N.

(** what a LpPacket says of itself, with the defaults of NDNLPv2 *)
Definition index_of (p : lp) : N := default 0%N (lp_idx p).
Definition count_of (p : lp) : N := default 1%N (lp_cnt p).
(** a LpPacket that is a network packet on its own *)
Definition is_whole (p : lp) : Prop := index_of p = 0%N /\ count_of p = 1%N.
(** the message a fragment from [ep] belongs to: that of the fragment number 0, the Sequences of a
    message's fragments being consecutive *)
Definition belongs (ep : N) (p : lp) (key : ra_key) : Prop :=
  exists s, lp_seq p = Some s /\ (s < SEQ)%N /\ fst key = ep /\ (snd key < SEQ)%N /\
    ((snd key + index_of p) mod SEQ = s mod SEQ)%N.

Section spec.
  Variable block : list N -> option (list N).
  (** drop timers fire when they are due *)
  Definition ra_ok (s : ra) (e : ra_ev) : Prop :=
    match e with
    | RaTimer key => exists pp t, ra_parts s !! key = Some pp /\ pp_timer pp = Some t /\ (t <= ra_now s)%Z
    | RaTick d => (0 <= d)%Z
    | RaRecv _ p => (forall q, lp_seq p = Some q -> (q < SEQ)%N) /\ (forall i, lp_idx p = Some i -> (i < SEQ)%N)
    | RaOptions _ _ => True
    end.
  (** a history: events, each in order with what it returned *)
  Inductive ra_hist (s0 : ra) : list (ra_ev * ra_out) -> ra -> Prop :=
  | ra_nil : ra_hist s0 [] s0
  | ra_snoc h s e s' o : ra_hist s0 h s -> ra_ok s e -> ra_step block s e = Some (s', o) -> ra_hist s0 (h ++ [(e, o)]) s'.
End spec.

(** the event returns a network packet reassembled from the message [key] *)
Definition delivers (key : ra_key) (x : ra_ev * ra_out) : Prop :=
  exists ep p b first, x = (RaRecv ep p, RPacket b first) /\ ~ is_whole p /\ belongs ep p key.

(** what is stored was received since the message was last forgotten *)
Definition since (key : ra_key) (h : list (ra_ev * ra_out)) (q : lp) : Prop :=
  exists h1 h2, h = h1 ++ h2 /\ (exists o, (RaRecv (fst key) q, o) ∈ h2) /\
    forall x, x ∈ h2 -> fst x <> RaTimer key /\ ~ delivers key x.

Section shared.
  Variable ep : N.
  Variable key : ra_key.
  Variable sent : list lp.
  (** nothing but these fragments uses the message identifier, and it is not given up *)
  Definition unshared (e : ra_ev) : Prop :=
    match e with
    | RaRecv ep' q => ep' = ep -> belongs ep q key -> is_whole q \/ q ∈ sent
    | RaTimer k => k <> key
    | RaOptions m _ => (N.of_nat (length sent) <= m)%N
    | RaTick _ => True
    end.
  Definition arrived (q : lp) (h : list (ra_ev * ra_out)) : Prop := exists o, (RaRecv ep q, o) ∈ h.
End shared.
