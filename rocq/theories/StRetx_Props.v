(** C38: exponential suppression of retransmissions. *)
From stdpp Require Import gmap.
From Verif Require Import Lib Name_Model Packet_Model Tab_Model Fw_Model St_Model St_Retx St_Spec St_Dec.

Local Open Scope Z_scope.

(** the parameters: which are accepted, and that they are kept.  Only a multiplier that is a
    number below 1 is refused *)
Theorem C38_config initial max mult :
  (0 < initial /\ initial <= max /\ match mult with Nan => True | Inf neg => neg = false | Fin m e => ~ value_below m e 1 end ->
    retx_new initial max mult = Some (RetxCfg initial max mult)) /\
  (initial <= 0 \/ max < initial \/ match mult with Nan => False | Inf neg => neg = true | Fin m e => value_below m e 1 end ->
    retx_new initial max mult = None).
Proof.
  assert (Hb : forall m e, below_one (Fin m e) = true <-> value_below m e 1).
  { intros m e. unfold below_one, value_below. destruct (Z.leb_spec 0 e) as [He|He]; case_decide; try lia. }
  unfold retx_new. split.
  - intros (H1 & H2 & H3). destruct (Z.leb_spec initial 0); [lia|]. destruct (Z.ltb_spec max initial); [lia|].
    destruct mult as [|neg|m e]; [done|by subst|]. destruct (below_one (Fin m e)) eqn:E; [|done]. by apply Hb in E.
  - intros [H|[H|H]]; destruct (Z.leb_spec initial 0); try done; destruct (Z.ltb_spec max initial); try done; try lia.
    destruct mult as [|neg|m e]; [done|by subst|]. by rewrite (proj2 (Hb m e) H).
Qed.
Print Assumptions C38_config.
Example C38_config_ex : retx_new 10 250 (Fin 1 1) = Some retx_default /\ retx_new 0 250 (Fin 1 1) = None /\
  retx_new 10 9 (Fin 1 1) = None /\ retx_new 10 250 (Fin 3 (-2)) = None /\ retx_new 10 10 (Fin 3 (-1)) = Some (RetxCfg 10 10 (Fin 3 (-1))).
Proof. by vm_compute. Qed.

(** no upstream can still answer: the Interest is new, and nothing is recorded.  Otherwise with [iv]
    the current interval and [last] the time of the last transmission, the Interest is suppressed
    iff less than [iv] milliseconds have passed; the interval is kept then, and grows otherwise.
    Nothing else in the strategy info changes *)
Theorem C38_new c t e : idle t (pe_out e) -> decide_per_pit c t e = Some (RNew, None).
Proof. intros H%idle_spec. unfold decide_per_pit. by rewrite H. Qed.
Theorem C38_suppress c t e iv last : ~ idle t (pe_out e) -> last_sent (pe_out e) last -> interval_now c (pe_info e) iv ->
  iv * 1000000 <= 9223372036854775807 -> t - last < iv * 1000000 ->
  exists si, decide_per_pit c t e = Some (RSuppress, Some si) /\ stored_interval si (Some iv) /\ others_kept (pe_info e) si.
Proof.
  intros Hi Hl%last_spec Hiv%interval_spec Hmax Ht. rewrite <- idle_spec in Hi. apply not_false_is_true in Hi.
  unfold decide_per_pit, within. rewrite Hi, Hl, Hiv. simpl. change NS_PER_MS with 1000000. change INT64_MAX with 9223372036854775807.
  destruct (Z.ltb_spec 9223372036854775807 (iv * 1000000)); [lia|]. destruct (Z.ltb_spec (t - last) (iv * 1000000)); [|lia].
  eexists. split; [done|]. split; [apply info_set_stored|apply info_set_others].
Qed.
Theorem C38_forward c t e iv iv' last : ~ idle t (pe_out e) -> last_sent (pe_out e) last -> interval_now c (pe_info e) iv ->
  iv * 1000000 <= 9223372036854775807 -> iv * 1000000 <= t - last -> grow c iv = Some iv' ->
  exists si, decide_per_pit c t e = Some (RForward, Some si) /\ stored_interval si (Some iv') /\ others_kept (pe_info e) si.
Proof.
  intros Hi Hl%last_spec Hiv%interval_spec Hmax Ht Hg. rewrite <- idle_spec in Hi. apply not_false_is_true in Hi.
  unfold decide_per_pit, within. rewrite Hi, Hl, Hiv, Hg. simpl. change NS_PER_MS with 1000000. change INT64_MAX with 9223372036854775807.
  destruct (Z.ltb_spec 9223372036854775807 (iv * 1000000)); [lia|]. destruct (Z.ltb_spec (t - last) (iv * 1000000)); [lia|].
  eexists. split; [done|]. split; [apply info_set_stored|apply info_set_others].
Qed.
Print Assumptions C38_forward.

(** the same for one upstream: what counts is when the Interest was last sent to it; the interval
    grows in a step of its own *)
Theorem C38_upstream c t e f : 
  (find_out f (pe_out e) = None -> decide_per_upstream c t e f = Some (RNew, None)) /\
  (forall r iv, find_out f (pe_out e) = Some r -> interval_now c (fr_info (or_rec r)) iv -> iv * 1000000 <= 9223372036854775807 ->
     exists si, decide_per_upstream c t e f = Some (if decide (t - fr_renewed (or_rec r) < iv * 1000000) then RSuppress else RForward, Some si) /\
       stored_interval si (Some iv) /\ others_kept (fr_info (or_rec r)) si).
Proof.
  unfold decide_per_upstream, within. split; [by intros ->|]. intros r iv -> Hiv%interval_spec Hmax. rewrite Hiv. change NS_PER_MS with 1000000. change INT64_MAX with 9223372036854775807.
  destruct (Z.ltb_spec 9223372036854775807 (iv * 1000000)); [lia|]. eexists. split; [|split; [apply info_set_stored|apply info_set_others]].
  destruct (Z.ltb_spec (t - fr_renewed (or_rec r)) (iv * 1000000)); case_decide; done || lia.
Qed.
Theorem C38_increment c si iv iv' : interval_now c si iv -> grow c iv = Some iv' ->
  exists si', increment_interval c si = Some si' /\ stored_interval si' (Some iv') /\ others_kept si si'.
Proof.
  intros Hiv%interval_spec Hg. unfold increment_interval. rewrite Hiv, Hg. eexists. split; [done|]. split; [apply info_set_stored|apply info_set_others].
Qed.
Print Assumptions C38_upstream.

(** growth: for intervals below 2^24 ms (4.6 hours; the float format has 24 bits) the new interval
    is the old one times the multiplier, up to one millisecond if that is not an integer, and at
    most the maximum *)
Theorem C38_grow c iv m e : 0 < iv <= rx_max c -> rx_max c < 2 ^ 24 -> rx_mult c = Fin m e -> 0 < m ->
  value_below (iv * m) e (2 ^ 62) ->
  exists v, grow c iv = Some (Z.min (rx_max c) v) /\
    (value_below (iv * m) e (2 ^ 24) -> value_near (iv * m) e v) /\ (~ value_below (iv * m) e (2 ^ 24) -> 2 ^ 24 <= v).
Proof. apply grow_value. Qed.
Print Assumptions C38_grow.
(** so it stays between the initial and the maximal one, and never shrinks *)
Theorem C38_bounds initial max mult c iv iv' : retx_new initial max mult = Some c -> max < 2 ^ 24 ->
  initial <= iv <= max -> grow c iv = Some iv' -> iv <= iv' <= max.
Proof.
  unfold retx_new. intros H Hm Hiv. destruct (Z.leb_spec initial 0); [done|]. destruct (Z.ltb_spec max initial); [done|]. destruct (below_one mult) eqn:Eb; [done|].
  injection H as <-. intros Hg. apply (grow_bounds (RetxCfg initial max mult) iv iv' ltac:(lia)) in Hg; simpl in *; try done; lia.
Qed.
Print Assumptions C38_bounds.
(** after [n] forwarded retransmissions the default interval is 10 * 2^n, at most 250 *)
Theorem C38_default n : Nat.iter n (fun o => match o with Some iv => grow retx_default iv | None => None end) (Some 10) = Some (Z.min 250 (10 * 2 ^ Z.of_nat n)).
Proof.
  induction n as [|n IH]; [done|]. rewrite Nat.iter_succ, IH. set (iv := Z.min 250 (10 * 2 ^ Z.of_nat n)).
  assert (Hp : 0 < 2 ^ Z.of_nat n) by (apply pow2_pos; lia). assert (Hiv : 10 <= iv <= 250) by lia.
  destruct (grow_value retx_default iv 1 1) as (v & -> & Hv & _); [simpl; lia|done|done|done|unfold value_below; rewrite decide_True by lia; lia|].
  f_equal. unfold value_below, value_near in Hv. rewrite !decide_True in Hv by lia. rewrite Hv by lia. simpl rx_max. rewrite Nat2Z.inj_succ, Z.pow_succ_r by lia. lia.
Qed.
Print Assumptions C38_default.

(** a PIT entry whose only upstream was asked 15 ms ago *)
Definition asked : pit_entry :=
  PitEntry (Interest [] false false 1 4000 None [] None None false) [] 
    [OutRecord (FaceRecord 7 0 5000000 4005000000 []) None] false 0 None [].
Example C38_ex : ~ idle 20000000 (pe_out asked) /\ last_sent (pe_out asked) 5000000 /\ interval_now retx_default (pe_info asked) 10 /\
  decide_per_pit retx_default 20000000 asked = Some (RForward, Some [(1020%N, [20])]) /\
  decide_per_pit retx_default 14999999 asked = Some (RSuppress, Some [(1020%N, [10])]) /\
  decide_per_pit retx_default 5000000000 asked = Some (RNew, None).
Proof.
  split; [|split; [|split; [|by vm_compute]]].
  - rewrite <- idle_spec. by vm_compute.
  - apply last_spec. by vm_compute.
  - apply (interval_is retx_default).
Qed.

(** F6: a multiplier that is not a number, or a huge one, is accepted, and then the conversion
    back to an integer is undefined: a promise that every accepted configuration can decide is
    refuted *)
Theorem C38_nan_refuted : ~ (forall initial max mult c t e, retx_new initial max mult = Some c -> decide_per_pit c t e <> None).
Proof.
  intros H. apply (H 10 250 Nan (RetxCfg 10 250 Nan) 20000000 asked); by vm_compute.
Qed.
Theorem C38_huge_refuted : ~ (forall initial max m e c t pe, retx_new initial max (Fin m e) = Some c -> decide_per_pit c t pe <> None).
Proof.
  intros H. apply (H 10 250 1 100 (RetxCfg 10 250 (Fin 1 100)) 20000000 asked); by vm_compute.
Qed.
(** F38: from 2^24 ms on the interval may fall below the initial one, by rounding *)
Theorem C38_bounds_refuted : ~ (forall initial max mult c iv iv', retx_new initial max mult = Some c ->
  initial <= iv <= max -> grow c iv = Some iv' -> initial <= iv' <= max).
Proof.
  intros H. specialize (H 16777217 16777300 (Fin 1 0) (RetxCfg 16777217 16777300 (Fin 1 0)) 16777217 16777216 eq_refl). destruct H as [H _]; [lia|by vm_compute|]. lia.
Qed.
Print Assumptions C38_nan_refuted.
Print Assumptions C38_bounds_refuted.

(** fixed suppression, as used by the access strategy *)
Theorem C38_fixed min t e last : (idle t (pe_out e) -> decide_fixed min t e = Some RNew) /\
  (~ idle t (pe_out e) -> last_sent (pe_out e) last -> decide_fixed min t e = Some (if decide (t - last < min * 1000000) then RSuppress else RForward)).
Proof.
  unfold decide_fixed. split.
  - intros ->%idle_spec. done.
  - intros Hi Hl%last_spec. rewrite <- idle_spec in Hi. apply not_false_is_true in Hi. rewrite Hi, Hl. simpl. change NS_PER_MS with 1000000.
    destruct (Z.ltb_spec (t - last) (min * 1000000)); case_decide; done || lia.
Qed.
Print Assumptions C38_fixed.
