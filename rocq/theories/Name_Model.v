(** Names, as provided by ndn-cxx and used by every NFD table.

    ndn-cxx is not part of /repo; these definitions follow the documented
    behaviour of ndn::Name and ndn::name::Component (canonical order of the NDN
    packet format specification).  They are part of the trusted base. *)
From Verif Require Import Lib.

(** A name component: TLV-TYPE and TLV-VALUE octets.
    (ndn::name::Component; octets are numbers, see [comp_valid].) *)
Definition comp : Type := (N * list N)%type.
Notation name := (list comp).

(* equality of components is decidable *)
Global Instance comp_eq_dec : EqDecision comp.
Proof. solve_decision. Defined.

(** TLV types of components (ndn-cxx encoding/tlv.hpp). *)
Definition T_IMPLICIT_DIGEST : N := 1.
Definition T_PARAMS_DIGEST : N := 2.
Definition T_GENERIC : N := 8.

(** ndn::name::Component::isImplicitSha256Digest, used at
    daemon/table/cs-entry.cpp:66 and daemon/table/pit.cpp:55. *)
Definition is_digest (c : comp) : bool := (c.1 =? T_IMPLICIT_DIGEST)%N.

(** Canonical order of components: by type, then length, then octets
    (ndn::name::Component::compare). *)
Definition comp_cmp (c d : comp) : comparison :=
  match N.compare c.1 d.1 with
  | Eq => match Nat.compare (length c.2) (length d.2) with
          | Eq => lex_cmp N.compare c.2 d.2
          | r => r
          end
  | r => r
  end.

(** Canonical order of names (ndn::Name::compare). *)
Definition name_cmp : name -> name -> comparison := lex_cmp comp_cmp.

Definition comp_eqb (c d : comp) : bool := is_eq (comp_cmp c d).
Definition name_eqb (n m : name) : bool := is_eq (name_cmp n m).

(** ndn::Name::isPrefixOf *)
Fixpoint name_prefixb (p n : name) : bool :=
  match p, n with
  | [], _ => true
  | _ :: _, [] => false
  | c :: p', d :: n' => comp_eqb c d && name_prefixb p' n'
  end.

(** Big-endian increment of an octet string; the flag is true on overflow
    (ndn::name::Component::getSuccessor). *)
Fixpoint bytes_succ (v : list N) : bool * list N :=
  match v with
  | [] => (true, [])
  | b :: v' =>
      let '(ov, w) := bytes_succ v' in
      if ov then
        if (b =? 255)%N then (true, 0%N :: w) else (false, (b + 1)%N :: w)
      else (false, b :: w)
  end.

(** ndn::name::Component::getSuccessor: the smallest component greater than
    the given one.  On overflow a component grows by one zero octet, except the
    fixed-size digest types, whose successor is the least component of the
    next type. *)
Definition comp_succ (c : comp) : comp :=
  let '(ov, w) := bytes_succ c.2 in
  if negb ov then (c.1, w)
  else if (c.1 =? T_IMPLICIT_DIGEST)%N then (T_PARAMS_DIGEST, replicate 32 0%N)
  else if (c.1 =? T_PARAMS_DIGEST)%N then (3%N, [])
  else (c.1, w ++ [0%N]).

(** ndn::Name::getSuccessor: increments the last component.  (The successor of
    the empty name is defined by ndn-cxx as a minimal one-component name; NFD
    never asks for it: daemon/table/cs.cpp:87.) *)
Definition name_succ (n : name) : name :=
  match rev n with
  | [] => [(T_IMPLICIT_DIGEST, replicate 32 0%N)]
  | c :: r => rev r ++ [comp_succ c]
  end.

(** Well-formedness guaranteed by the ndn-cxx decoder: octets below 256, the
    digest types hold exactly 32 octets, types are positive. *)
Definition comp_valid (c : comp) : Prop :=
  (0 < c.1)%N /\ Forall (fun b => (b < 256)%N) c.2 /\
  (c.1 = T_IMPLICIT_DIGEST -> length c.2 = 32) /\
  (c.1 = T_PARAMS_DIGEST -> length c.2 = 32).
Definition name_valid (n : name) : Prop := Forall comp_valid n.
