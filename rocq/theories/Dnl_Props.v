(** Properties C08 and C09: dead nonce list. *)
From Verif Require Import Lib Name_Model Dnl_Model Dnl_Spec Dnl_Proof.

(** C08: an added nonce is reported as long as, at every moment since, fewer
    insertions have followed than the capacity at that moment; this holds for every
    hash function and every choice the hash table makes among equal entries. *)
Theorem C08_retained me h d n nonce c t :
  dnl_after me h d ->
  (forall t1 t2, t = t1 ++ t2 ->
     (N.of_nat (n_inserts t1) < capacity (dnl_run me d (Add n nonce c :: t1)))%N) ->
  dnl_has me (dnl_run me d (Add n nonce c :: t)) n nonce = true.
Proof. exact (retained me h d n nonce c t). Qed.
Print Assumptions C08_retained.

(** C08: whatever the capacity does, 1023 later insertions never hide a nonce. *)
Theorem C08_retained_min me h d n nonce c t :
  dnl_after me h d -> (N.of_nat (n_inserts t) < 1024)%N ->
  dnl_has me (dnl_run me d (Add n nonce c :: t)) n nonce = true.
Proof. exact (retained_min me h d n nonce c t). Qed.
Print Assumptions C08_retained_min.

(** C08: a reported nonce shares its fingerprint with an added one, or its
    fingerprint is the reserved value. *)
Theorem C08_only_added me h d n nonce :
  dnl_after me h d -> dnl_has me d n nonce = true ->
  was_added me h (me n nonce) \/ me n nonce = 0%N.
Proof. exact (only_added me h d n nonce). Qed.
Print Assumptions C08_only_added.

(** The reserved value cannot be dropped from the previous statement: a fresh list
    already reports every pair whose hash is 0. *)
Theorem C08_reserved_value_refuted :
  exists (me : name -> N -> fingerprint) d n nonce,
    dnl_after me [] d /\ dnl_has me d n nonce = true /\ ~ was_added me [] (me n nonce).
Proof.
  exists (fun _ _ => 0%N), (Dnl [0;0;0;0;0]%N 16384 []), [], 7%N. split_and!.
  - exists MIN_LIFETIME. eexists. done.
  - done.
  - intros (? & ? & ? & H & _). by apply elem_of_nil in H.
Qed.
Print Assumptions C08_reserved_value_refuted.

(** C08/C09: the list holds exactly the youngest part of the unbounded list of
    everything added, ordered by last addition; entries leave oldest first. *)
Theorem C09_oldest_first me h d :
  dnl_after me h d -> hash_avoids_mark me h -> queue d `suffix_of` recency me h.
Proof. intros H1 H2. exact (proj2 (suffix_all me h d H1 H2)). Qed.
Print Assumptions C09_oldest_first.

(** C09: capacity bounds. *)
Theorem C09_capacity_bounds me h d :
  dnl_after me h d -> (2 ^ 10 <= capacity d <= 2 ^ 24)%N.
Proof. exact (after_cap_ok me h d). Qed.
Print Assumptions C09_capacity_bounds.

(** C09: an adjustment multiplies the capacity by exactly 0.9 or 1.2, rounded
    down and clipped, or keeps it, depending on the mark counts recorded since the
    previous adjustment.  (The doubles 0.9 and 1.2 and the rounding of the product
    are modelled.) *)
Theorem C09_adjust me lifetime d0 h :
  dnl_new lifetime = Some d0 ->
  let d := dnl_run me d0 h in
  let c := capacity d in
  let c' := capacity (dnl_step me d Adjust) in
  let r := recorded me d0 (rev h) in
  (all_above r -> c' = N.max 1024 (9 * c / 10)) /\
  (all_below r -> r <> [] -> c' = N.min 16777216 (6 * c / 5)) /\
  (~ all_above r -> ~ all_below r -> c' = c).
Proof. exact (adjust_history me lifetime d0 h). Qed.
Print Assumptions C09_adjust.

(** C09: only an adjustment changes the capacity. *)
Theorem C09_capacity_fixed me d o :
  o <> Adjust -> capacity (dnl_step me d o) = capacity d.
Proof.
  destruct o as [n nonce c| |]; intros H; [|done|done]. simpl.
  destruct (dnl_add_cases me d n nonce c) as [[_ ->]|(?&?&_& ->)]; [|done].
  match goal with |- context [evict_entries ?e] =>
    destruct (evict_entries_spec e) as (m & _ & -> & _) end. done.
Qed.
Print Assumptions C09_capacity_fixed.

(** C09: number of entries after each operation: an addition of a new
    fingerprint or an adjustment evicts min(excess over capacity, 64) entries,
    anything else evicts nothing. *)
Theorem C09_evictions me d o :
  let len := N.of_nat (length (queue d)) in
  let grown := match o with
               | Add n nonce _ => if dnl_has me d n nonce then len else len + 1
               | Mark => len + 1 | Adjust => len end%N in
  N.of_nat (length (queue (dnl_step me d o))) =
    (if match o with Add n nonce _ => negb (dnl_has me d n nonce) | Mark => false | Adjust => true end
     then grown - N.min (grown - capacity (dnl_step me d o)) 64 else grown)%N.
Proof. exact (step_length me d o). Qed.
Print Assumptions C09_evictions.

(** C09: a lifetime below 50 ms is refused, any other accepted. *)
Theorem C09_lifetime lifetime :
  dnl_new lifetime = None <-> (lifetime < 50 * 1000000)%Z.
Proof. unfold dnl_new, MIN_LIFETIME. destruct (_ <? _)%Z eqn:E; split; intros; first [done|lia]. Qed.
Print Assumptions C09_lifetime.

(** The hypotheses are met: a history with an injective-enough hash. *)
Definition ex_hash (n : name) (nonce : N) : fingerprint := (nonce + 1)%N.
Definition ex_dnl_hist : list dnl_op :=
  [Add [] 3 0; Mark; Add [] 4 0; Add [] 3 0; Adjust; Mark].
Example ex_dnl_after :
  dnl_after ex_hash ex_dnl_hist
    (Dnl [0; 0; 0; 0; 0; 0; 5; 4; 0]%N 14745 [7%N]) /\
  hash_avoids_mark ex_hash ex_dnl_hist /\
  dnl_has ex_hash (Dnl [0; 0; 0; 0; 0; 0; 5; 4; 0]%N 14745 [7%N]) [] 3 = true /\
  dnl_has ex_hash (Dnl [0; 0; 0; 0; 0; 0; 5; 4; 0]%N 14745 [7%N]) [] 5 = false.
Proof.
  split_and!; try done.
  - exists 6000000000%Z. eexists. split; [done|]. by vm_compute.
  - intros n nonce c _. unfold ex_hash. lia.
Qed.
(** an adjustment upwards needs histories where marks were evicted *)
Example ex_dnl_up : all_below [3; 4]%N /\ all_above [6; 9]%N /\ ~ all_below [5]%N /\ ~ all_above [5]%N.
Proof.
  unfold all_below, all_above. split_and!.
  1-2: intros c; rewrite !elem_of_cons, elem_of_nil; lia.
  all: intros H; specialize (H 5%N ltac:(mem)); lia.
Qed.
