(** Dead nonce list: daemon/table/dead-nonce-list.{hpp,cpp}.

    The multi_index container has a sequence index (a list, oldest entry first)
    and a hashed non-unique index.  [find] on the hashed index returns some
    entry equal to the key; which one is unspecified, so operation [Add] carries
    that choice as a number.  Timers are operations that may fire in any order
    (the intervals are lifetime/5 and lifetime; the theorems do not use them). *)
From Verif Require Import Lib Name_Model.

Definition fingerprint := N.       (* Entry, uint64_t *)

(** dead-nonce-list.hpp:165-211 constants *)
Definition INITIAL_CAPACITY : N := N.shiftl 1 14.
Definition MIN_CAPACITY : N := N.shiftl 1 10.
Definition MAX_CAPACITY : N := N.shiftl 1 24.
Definition MARK : fingerprint := 0%N.
Definition EXPECTED_MARK_COUNT : N := 5.
Definition EVICT_LIMIT : N := 64.

(** IEEE-754 binary64 product of an integer below 2^53 with a positive double
    [m * 2^(-e)] (m < 2^53), rounded to nearest, ties to even, then truncated to
    an integer.  Used for [static_cast<size_t>(m_capacity * CAPACITY_UP)]. *)
Definition round_half_even (p : N) (s : N) : N :=
  let q := N.shiftr p s in
  let r := (p - N.shiftl q s)%N in
  let half := N.shiftl 1 (s - 1) in
  if (s =? 0)%N then q
  else if (r <? half)%N then q
  else if (half <? r)%N then (q + 1)%N
  else if N.even q then q else (q + 1)%N.

Definition double_mul_trunc (n m e : N) : N :=
  let p := (n * m)%N in
  let s := (N.log2 p - 52)%N in        (* bits beyond a 53-bit significand *)
  N.shiftr (N.shiftl (round_half_even p s) s) e.

(** dead-nonce-list.hpp:205-206: the doubles nearest to 0.9 and 1.2 *)
Definition times_capacity_down (c : N) : N := double_mul_trunc c 8106479329266893 53.
Definition times_capacity_up (c : N) : N := double_mul_trunc c 5404319552844595 52.

Record dnl := Dnl {
  queue : list fingerprint;     (* m_queue, oldest first *)
  capacity : N;                 (* m_capacity *)
  counts : list N;              (* m_actualMarkCounts *)
}.

(** dead-nonce-list.cpp:104-108 countMarks *)
Definition count_marks (q : list fingerprint) : N :=
  N.of_nat (length (filter (fun x => x = MARK) q)).

(** dead-nonce-list.cpp:35-62 constructor; [None] stands for the
    std::invalid_argument thrown when the lifetime is below MIN_LIFETIME (50 ms).
    The remaining BOOST_ASSERTs are about constants. *)
Definition MIN_LIFETIME : Z := 50000000.   (* nanoseconds *)
Definition dnl_new (lifetime : Z) : option dnl :=
  if (lifetime <? MIN_LIFETIME)%Z then None
  else Some (Dnl (replicate (N.to_nat EXPECTED_MARK_COUNT) MARK) INITIAL_CAPACITY []).

(** dead-nonce-list.cpp:64-68 size *)
Definition dnl_size (d : dnl) : N :=
  (N.of_nat (length (queue d)) - count_marks (queue d))%N.

(** dead-nonce-list.cpp:146-159 evictEntries *)
Definition evict_entries (d : dnl) : dnl :=
  let size := N.of_nat (length (queue d)) in
  if (size <=? capacity d)%N then d
  else let n_evict := N.min (size - capacity d) EVICT_LIMIT in
       Dnl (drop (N.to_nat n_evict) (queue d)) (capacity d) (counts d).

(** positions of the entries equal to [x] *)
Fixpoint positions (i : nat) (x : fingerprint) (q : list fingerprint) : list nat :=
  match q with
  | [] => []
  | y :: q' => if (x =? y)%N then i :: positions (S i) x q' else positions (S i) x q'
  end.

(** boost::multi_index sequenced::relocate(end, position) *)
Definition relocate_to_end (i : nat) (q : list fingerprint) : list fingerprint :=
  match q !! i with
  | Some x => take i q ++ drop (S i) q ++ [x]
  | None => q
  end.

Section hash.
  (** dead-nonce-list.cpp:95-102 makeEntry: CityHash64WithSeed of the encoded name,
      seeded with the nonce.  The hash function is a parameter. *)
  Variable make_entry : name -> N -> fingerprint.

  (** dead-nonce-list.cpp:70-75 has *)
  Definition dnl_has (d : dnl) (n : name) (nonce : N) : bool :=
    bool_decide (make_entry n nonce ∈ queue d).

  (** dead-nonce-list.cpp:77-93 add *)
  Definition dnl_add (d : dnl) (n : name) (nonce : N) (choice : nat) : dnl :=
    let entry := make_entry n nonce in
    match positions 0 entry (queue d) with
    | [] => evict_entries (Dnl (queue d ++ [entry]) (capacity d) (counts d))
    | (p0 :: _) as ps =>
        let i := nth (choice mod length ps) ps p0 in
        Dnl (relocate_to_end i (queue d)) (capacity d) (counts d)
    end.

  (** dead-nonce-list.cpp:110-120 mark *)
  Definition dnl_mark (d : dnl) : dnl :=
    let q := queue d ++ [MARK] in
    Dnl q (capacity d) (count_marks q :: counts d).

  (** dead-nonce-list.cpp:122-144 adjustCapacity.  [equal_range(5).second ==
      begin()]: no recorded count is <= 5 (also when none was recorded);
      [equal_range(5).first == end()]: none is >= 5. *)
  Definition dnl_adjust (d : dnl) : dnl :=
    let cap :=
      if forallb (fun c => EXPECTED_MARK_COUNT <? c)%N (counts d)
      then N.max MIN_CAPACITY (times_capacity_down (capacity d))
      else if forallb (fun c => c <? EXPECTED_MARK_COUNT)%N (counts d)
      then N.min MAX_CAPACITY (times_capacity_up (capacity d))
      else capacity d in
    evict_entries (Dnl (queue d) cap []).

  Inductive dnl_op :=
  | Add (n : name) (nonce : N) (choice : nat)
  | Mark
  | Adjust.

  Definition dnl_step (d : dnl) (o : dnl_op) : dnl :=
    match o with
    | Add n nonce c => dnl_add d n nonce c
    | Mark => dnl_mark d
    | Adjust => dnl_adjust d
    end.
  Definition dnl_run (d : dnl) (h : list dnl_op) : dnl := foldl dnl_step d h.
End hash.
