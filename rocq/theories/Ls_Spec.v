(** What a link service may send, pass up and mark. *)
From stdpp Require Import gmap.
From Verif Require Import Lib Lp_Model Rel_Model Ls_Model.

(** * Sizes *)
(** a packet may be handed to a transport with this MTU *)
Definition within (mtu : Z) (p : lp) : Prop := mtu = MTU_UNLIMITED \/ (Z.of_N (wire_size p) <= mtu)%Z.

(** * Congestion marking *)
(** the newest calls with a long queue, back to the last one without: the present congestion incident *)
Fixpoint incident (l : list check) : list check :=
  match l with
  | c :: l' => if (c_thr c <? c_len c)%Z then c :: incident l' else []
  | [] => []
  end.
(** when it began *)
Definition began (l : list check) : option check := last (incident l).
Definition marks (l : list check) : nat := length (List.filter c_marked l).

Section deadline.
  Variable root : Z -> N -> Z.
  (** With base interval [b]: the time from the start of an incident to when the next packet is to be marked, after [n] marks *)
  Fixpoint wait (b : Z) (n : nat) : Z :=
    match n with O => b | S m => (wait b m + root b (N.of_nat m + 2))%Z end.
End deadline.

(** * What is passed up *)
Section fields.
  Variable type_of : list N -> N.
  Variables interest_ok data_ok nack_ok cache_ok pa_ok : list N -> bool.

  (** the network packet is what the LpPacket says it is, and can be parsed *)
  Definition well_formed (k : net_kind) (net : list N) : Prop :=
    match k with
    | KInterest => type_of net = 5%N /\ interest_ok net = true
    | KData => type_of net = 6%N /\ data_ok net = true
    | KNack h => type_of net = 5%N /\ interest_ok net = true /\ nack_ok h = true
    end.
  (** the fields of the LpPacket may go with such a packet *)
  Definition allowed (o : ls_opts) (k : net_kind) (p : lp) : Prop :=
    match k with
    | KInterest => lp_nack p = None /\ (is_Some (lp_nexthop p) -> o_local o = true) /\ lp_cache p = None /\ lp_pa p = None
    | KData => lp_nack p = None /\ lp_nexthop p = None /\ lp_nondisc p = false /\
        (forall c, lp_cache p = Some c -> cache_ok c = true) /\ (forall a, lp_pa p = Some a -> o_learn o = true -> pa_ok a = true)
    | KNack h => lp_nack p = Some h /\ lp_nexthop p = None /\ lp_cache p = None /\ lp_nondisc p = false /\ lp_pa p = None
    end.
  (** what becomes a tag *)
  Definition passed (o : ls_opts) (k : net_kind) (p : lp) (t : tags) : Prop :=
    t_inface t = None /\ t_mark t = lp_mark p /\
    match k with
    | KInterest => t_nexthop t = lp_nexthop p /\ t_pit t = lp_pit p /\ t_cache t = None /\ t_pa t = None /\
        (t_nondisc t = true <-> lp_nondisc p = true /\ o_learn o = true)
    | KData => t_nexthop t = None /\ t_pit t = None /\ t_cache t = lp_cache p /\ t_nondisc t = false /\
        (forall a, t_pa t = Some a <-> lp_pa p = Some a /\ o_learn o = true)
    | KNack _ => t_nexthop t = None /\ t_pit t = None /\ t_cache t = None /\ t_pa t = None /\ t_nondisc t = false
    end.
End fields.

(** * Histories *)
Section hist.
  Variable root : Z -> N -> Z.
  Variable type_of : list N -> N.
  Variables interest_ok data_ok nack_ok cache_ok pa_ok : list N -> bool.
  Variable block : list N -> option (list N).
  Variables (max_retx : N) (idle_period : Z) (thr : N) (rto : list Z -> Z).
  (** time does not go back; [l] are the events, each with the queue lengths seen *)
  Definition ls_ok (e : ls_ev) : Prop := match e with LsTick d => (0 <= d)%Z | _ => True end.
  Inductive ls_hist (s0 : ls) : list (ls_ev * (nat -> Z)) -> ls -> Prop :=
  | lh_nil : ls_hist s0 [] s0
  | lh_snoc l s e q s' : ls_hist s0 l s -> ls_ok e ->
      ls_step root type_of interest_ok data_ok nack_ok cache_ok pa_ok block max_retx idle_period thr rto q s e = Some s' ->
      ls_hist s0 (l ++ [(e, q)]) s'.
  Definition ls_reached (s : ls) : Prop := exists o m t rm rt l, ls_hist (ls_new o m t rm rt) l s.
End hist.
