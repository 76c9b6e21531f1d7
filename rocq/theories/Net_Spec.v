(** What subnets and predicates mean. *)
From Verif Require Import Lib Net_Model.

(** the bits of an address, the most significant first *)
Definition byte_bits (b : N) : list bool := map (N.testbit b) [7; 6; 5; 4; 3; 2; 1; 0]%N.
Definition bits (l : list N) : list bool := concat (map byte_bits l).
Definition addr_bits (a : addr) : list bool := match a with V4 b0 b1 b2 b3 => bits [b0; b1; b2; b3] | V6 l _ => bits l end.
Definition is_v4 (a : addr) : bool := match a with V4 _ _ _ _ => true | V6 _ _ => false end.
Definition scope (a : addr) : N := match a with V4 _ _ _ _ => 0 | V6 _ s => s end.
Definition byte (b : N) : Prop := (b < 256)%N.
Definition addr_wf (a : addr) : Prop := match a with V4 b0 b1 b2 b3 => Forall byte [b0; b1; b2; b3] | V6 l _ => Forall byte l /\ length l = 16%nat end.
Definition width (a : addr) : nat := if is_v4 a then 32 else 128.
(** two addresses are of one family and agree on their first bits *)
Definition same_subnet (len : nat) (a b : addr) : Prop := is_v4 a = is_v4 b /\ take len (addr_bits a) = take len (addr_bits b).
(** the last address of a subnet: all bits after the prefix are ones *)
Definition is_last (len : nat) (a : addr) : Prop := Forall (fun b => b = true) (drop len (addr_bits a)).
(** the number a text of digits stands for *)
Fixpoint decimal (s : text) : N := match s with [] => 0 | c :: s => (c - 48) * 10 ^ N.of_nat (length s) + decimal s end%N.
(** an address, a slash, a prefix length *)
Definition is_cidr (make_address : text -> option addr) (s : text) (a : addr) (len : nat) : Prop :=
  exists t d, s = t ++ SLASH :: d /\ SLASH ∉ t /\ (forall c, c ∈ s -> is_space c = false) /\ make_address t = Some a /\
    d <> [] /\ (forall c, c ∈ d -> is_digit c = true) /\ decimal d = N.of_nat len /\ (len <= width a)%nat.
(** ** Predicates *)
(** the text a rule is kept as *)
Definition rule_text (r : rule) : text := match fst r with Star => STAR | _ => snd r end.
Definition rule_ok (make_address : text -> option addr) (is_ether : text -> bool) (iface : bool) (r : rule) : Prop :=
  match fst r with
  | Star => True
  | Ifname => iface = true /\ snd r <> []
  | Ether => iface = true /\ is_ether (snd r) = true
  | Subnet => exists a len, is_cidr make_address (snd r) a len
  | OtherKey => False
  end.
(** an address is in the subnet that a text names; see C58 for the addresses with a scope *)
Definition in_subnet (make_address : text -> option addr) (t : text) (x : addr) : Prop :=
  exists a len, is_cidr make_address t a len /\ same_subnet len a x /\ (scope x = 0%N \/ ~ is_last len x).
Definition addr_matches (make_address : text -> option addr) (x : addr) (t : text) : Prop := t = STAR \/ in_subnet make_address t x.
Definition netif_matches (make_address : text -> option addr) (fnmatch : text -> text -> bool) (i : netif) (t : text) : Prop :=
  t = STAR \/ fnmatch t (nif_name i) = true \/ t = nif_ether i \/ exists x, x ∈ nif_addrs i /\ in_subnet make_address t x.
