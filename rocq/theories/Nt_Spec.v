(** What the name tree is for: a finite map from names to table entries, closed
    under prefixes.  Stated without hashes, buckets or links. *)
From stdpp Require Import gmap.
From Verif Require Import Lib Name_Model Nt_Model.

(** load-factor options that the constructor accepts and that never shrink below
    the minimum when expanding (name-tree-hashtable.cpp:122-130) *)
Definition options_ok (o : ht_options) : Prop :=
  (0 < o_min o)%N /\ (o_min o <= o_initial o)%N /\
  (forall n, (0 < n)%N -> (n <= o_expand o n)%N).

(** [r] is the longest of the names satisfying [ok] *)
Definition is_longest (ok : name -> Prop) (r : option name) : Prop :=
  match r with
  | Some p => ok p /\ forall q, ok q -> length q <= length p
  | None => forall q, ~ ok q
  end.

Section spec.
  Context {E : Type} (e_empty : E) (e_has_tables : E -> bool).

  (** the content: what is stored at each name *)
  Notation content := (name -> option E).

  Definition prefix_closed (m : content) : Prop :=
    forall n p, is_Some (m n) -> p `prefix_of` n -> is_Some (m p).

  (** after a lookup of [n]: every prefix of [n] is present, nothing else changes *)
  Definition after_lookup (n : name) (m m' : content) : Prop :=
    forall k, m' k = match m k with
                     | Some e => Some e
                     | None => if bool_decide (k `prefix_of` n) then Some e_empty else None
                     end.

  (** [p], an ancestor of or equal to [n], is garbage once [n] is dropped: all that
      is stored at or below it lies on the path to [n] and holds no table entries *)
  Definition garbage_above (m : content) (n p : name) : Prop :=
    p `prefix_of` n /\
    forall q e, m q = Some e -> p `prefix_of` q -> q `prefix_of` n /\ e_has_tables e = false.

  (** [erase n] with or without its ancestors removes exactly the garbage *)
  Definition after_erase (n : name) (ancestors : bool) (m m' : content) : Prop :=
    forall k, 
      (garbage_above m n k /\ (ancestors = true \/ k = n) -> m' k = None) /\
      (~ (garbage_above m n k /\ (ancestors = true \/ k = n)) -> m' k = m k).

  (** [m] holds exactly [k] names *)
  Definition holds_exactly (m : content) (k : nat) : Prop :=
    exists ns : list name, NoDup ns /\ length ns = k /\ forall n, n ∈ ns <-> is_Some (m n).
End spec.

Section history.
  Context {E : Type} (e_empty : E) (e_has_tables : E -> bool) (hash_comp : comp -> N) (opts : ht_options).

  Inductive nt_op :=
  | NLookup (n : name) (len : nat)
  | NErase (n : name) (ancestors : bool)
  | NSet (n : name) (e : E).

  Definition nt_step (t : hashtable (E:=E)) (o : nt_op) : option hashtable :=
    match o with
    | NLookup n len => option_map fst (nt_lookup e_empty hash_comp opts n len t)
    | NErase n a => option_map fst (nt_erase_if_empty e_empty e_has_tables hash_comp opts n a t)
    | NSet n e => Some (nt_set_tables n e t)
    end.

  (** the content, read through the public exact-match search *)
  Definition stored (t : hashtable (E:=E)) (n : name) : option E :=
    option_map n_tables (nt_find_exact e_empty hash_comp opts n None t).

  (** what callers respect: bounded depth; entries they hold pointers to exist *)
  Definition op_allowed (t : hashtable (E:=E)) (o : nt_op) : Prop :=
    match o with
    | NLookup n len => len <= length n /\ len <= 32
    | NErase n _ | NSet n _ => is_Some (stored t n)
    end.

  Inductive nt_reachable : hashtable (E:=E) -> Prop :=
  | nt_reach_new : nt_reachable (ht_new opts)
  | nt_reach_step t o t' :
      nt_reachable t -> op_allowed t o -> nt_step t o = Some t' -> nt_reachable t'.
End history.
Arguments nt_op : clear implicits.
