(** Independent specification of the canonical order of NDN names
    (NDN packet format specification, "Canonical Order"). *)
From Verif Require Import Lib Name_Model.

(** octet strings of equal length, compared octet by octet *)
Inductive bytes_lt : list N -> list N -> Prop :=
| bytes_lt_here a b v w : (a < b)%N -> bytes_lt (a :: v) (b :: w)
| bytes_lt_there a v w : bytes_lt v w -> bytes_lt (a :: v) (a :: w).

(** smaller type first, then shorter value, then value *)
Definition comp_lt (c d : comp) : Prop :=
  (c.1 < d.1)%N \/
  (c.1 = d.1 /\ (length c.2 < length d.2 \/
                 (length c.2 = length d.2 /\ bytes_lt c.2 d.2))).

(** a proper prefix comes first; otherwise the first differing component decides *)
Inductive name_lt : name -> name -> Prop :=
| name_lt_nil c n : name_lt [] (c :: n)
| name_lt_here c d n m : comp_lt c d -> name_lt (c :: n) (d :: m)
| name_lt_there c n m : name_lt n m -> name_lt (c :: n) (c :: m).
