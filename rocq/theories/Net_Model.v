(** Subnets and the predicates on network interfaces and addresses: core/network, daemon/face/network-predicate. *)
From Verif Require Import Lib.

(** A text is its list of bytes. *)
Notation text := (list N).
Fixpoint text_cmp (a b : text) : comparison :=
  match a, b with
  | [], [] => Eq
  | [], _ => Lt
  | _, [] => Gt
  | x :: a, y :: b => match (x ?= y)%N with Eq => text_cmp a b | c => c end
  end.
Definition text_eqb (a b : text) : bool := match text_cmp a b with Eq => true | _ => false end.
Definition SLASH : N := 47.
Definition STAR : text := [42]%N.
(** isspace in the C locale *)
Definition is_space (c : N) : bool := (c =? 32)%N || ((9 <=? c)%N && (c <=? 13)%N).
Definition is_digit (c : N) : bool := (48 <=? c)%N && (c <=? 57)%N.

(** boost::asio::ip::address: four bytes, or sixteen bytes and a scope *)
Inductive addr := V4 (b0 b1 b2 b3 : N) | V6 (bytes : list N) (scope : N).
Definition to_uint (b0 b1 b2 b3 : N) : N := (b0 * 2 ^ 24 + b1 * 2 ^ 16 + b2 * 2 ^ 8 + b3)%N.
(** boost/asio/ip/impl/address.ipp operator<: by family (IPv4 first); address_v4 compares as integers,
    address_v6 by memcmp, then by scope *)
Definition addr_ltb (a b : addr) : bool :=
  match a, b with
  | V4 _ _ _ _, V6 _ _ => true
  | V6 _ _, V4 _ _ _ _ => false
  | V4 a0 a1 a2 a3, V4 b0 b1 b2 b3 => (to_uint a0 a1 a2 a3 <? to_uint b0 b1 b2 b3)%N
  | V6 a sa, V6 b sb => match text_cmp a b with Lt => true | Gt => false | Eq => (sa <? sb)%N end
  end.
Definition addr_leb (a b : addr) : bool := negb (addr_ltb b a).
(** network.hpp:35 Network: m_minAddress, m_maxAddress *)
Record network := Network { n_min : addr; n_max : addr }.
(** network.hpp:43-47 doesContain *)
Definition does_contain (n : network) (a : addr) : bool := addr_leb (n_min n) a && addr_leb a (n_max n).
(** network.cpp:44-61 getMaxRangeV4, getMaxRangeV6 *)
Definition max_range_v4 : network := Network (V4 0 0 0 0) (V4 255 255 255 255).
Definition max_range_v6 : network := Network (V6 (repeat 0%N 16) 0) (V6 (repeat 255%N 16) 0).

(** network.cpp:134-139, 158-163: the mask bytes; [size] of them *)
Definition set_bit (l : list N) (i : nat) : list N :=
  let byteId := (i / 8)%nat in let bitIndex := (7 - i mod 8)%nat in
  map (fun jb => if (fst jb =? byteId)%nat then N.lor (snd jb) (N.shiftl 1 (N.of_nat bitIndex)) else snd jb) (combine (seq 0 (length l)) l).
Definition mask_bytes (size mask : nat) : list N := fold_left set_bit (seq 0 mask) (repeat 0%N size).
(** network.cpp:141-151, 165-174.  ~ of a byte, back in a byte *)
Definition byte_not (b : N) : N := (255 - b)%N.
Definition min_bytes (a m : list N) : list N := map (fun am => N.land (fst am) (snd am)) (combine a m).
Definition max_bytes (a m : list N) : list N := map (fun am => N.lor (fst am) (byte_not (snd am))) (combine a m).
Definition v4_of (l : list N) : addr := match l with [b0; b1; b2; b3] => V4 b0 b1 b2 b3 | _ => V4 0 0 0 0 end.

(** boost::lexical_cast<size_t>: a bad cast for no digits and for numbers that a size_t cannot hold *)
Definition lex_size (s : text) : option N :=
  match s with
  | [] => None
  | _ => let n := fold_left (fun acc c => acc * 10 + (c - 48))%N s 0%N in if (n <? 2 ^ 64)%N then Some n else None
  end.
(** std::string::find('/'): what is before and after the first slash *)
Fixpoint find_slash_from (pre s : text) : option (text * text) :=
  match s with [] => None | c :: s => if (c =? SLASH)%N then Some (rev pre, s) else find_slash_from (c :: pre) s end.
Definition find_slash (s : text) : option (text * text) := find_slash_from [] s.

Section Net.
  (** boost::asio::ip::make_address *)
  Context (make_address : text -> option addr).
  (** network.cpp:85-181 operator>> on a text without spaces *)
  Definition parse_network (s : text) : option network :=
    match find_slash s with
    | None => match make_address s with Some a => Some (Network a a) | None => None end
    | Some (as_, ms) =>
        match make_address as_ with
        | None => None
        | Some a =>
            if negb (forallb is_digit ms) then None
            else match lex_size ms with
                 | None => None
                 | Some mask =>
                     match a with
                     | V4 b0 b1 b2 b3 =>
                         if (32 <? mask)%N then None
                         else let m := mask_bytes 4 (N.to_nat mask) in
                              Some (Network (v4_of (min_bytes [b0; b1; b2; b3] m)) (v4_of (max_bytes [b0; b1; b2; b3] m)))
                     | V6 b _ =>
                         if (128 <? mask)%N then None
                         else let m := mask_bytes 16 (N.to_nat mask) in
                              Some (Network (V6 (min_bytes b m) 0) (V6 (max_bytes b m) 0))
                     end
                 end
        end
    end.
  (** boost::lexical_cast<Network>: the stream does not skip spaces, and all of the text has to be read *)
  Definition lex_network (s : text) : option network := if existsb is_space s then None else parse_network s.
  (** network.cpp:63-79 isValidCidr *)
  Definition is_valid_cidr (s : text) : bool :=
    match find_slash s with None => false | Some _ => match lex_network s with Some _ => true | None => false end end.

  (** ** Predicates *)
  Inductive key := Star | Ifname | Ether | Subnet | OtherKey.
  Definition rule : Type := key * text.
  (** std::set<std::string>: in order, once *)
  Fixpoint set_insert (x : text) (l : list text) : list text :=
    match l with
    | [] => [x]
    | y :: l => match text_cmp x y with Lt => x :: y :: l | Eq => y :: l | Gt => y :: set_insert x l end
    end.
  Record netif := Netif { nif_name : text; nif_ether : text; nif_addrs : list addr }.
  (** fnmatch(3) without flags, ethernet::Address::fromString is not null.  [nif_ether] is the address as
      ethernet::Address::toString writes it *)
  Context (fnmatch : text -> text -> bool) (is_ether : text -> bool).
  (** network-predicate.cpp:117-142, 144-159 isRuleSupported and isRuleValid of NetworkInterfacePredicate
      ([true]) and IpAddressPredicate ([false]) *)
  Definition rule_supported (iface : bool) (k : key) : bool :=
    match k with Ifname | Ether => iface | Subnet => true | _ => false end.
  Definition rule_valid (k : key) (v : text) : bool :=
    match k with Ifname => match v with [] => false | _ => true end | Ether => is_ether v | Subnet => is_valid_cidr v | _ => false end.
  (** network-predicate.cpp:48-73 parseList: the new set, and whether it was read to the end; an exception leaves
      what was read *)
  Fixpoint parse_list (iface : bool) (items : list rule) (set : list text) : list text * bool :=
    match items with
    | [] => (set, true)
    | (k, v) :: items =>
        match k with
        | Star => parse_list iface items (set_insert STAR set)
        | _ => if negb (rule_supported iface k) then (set, false)
               else if negb (rule_valid k v) then (set, false)
               else parse_list iface items (set_insert v set)
        end
    end.
  Record predicate := Predicate { whitelist : list text; blacklist : list text }.
  (** network-predicate.cpp:36-46 *)
  Definition pred_clear : predicate := Predicate [STAR] [].
  (** network-predicate.cpp:100-111, 112-115: None is an exception *)
  Definition parse_whitelist (iface : bool) (items : list rule) (p : predicate) : predicate * bool :=
    let '(s, ok) := parse_list iface items [] in (Predicate s (blacklist p), ok).
  Definition parse_blacklist (iface : bool) (items : list rule) (p : predicate) : predicate * bool :=
    let '(s, ok) := parse_list iface items [] in (Predicate (whitelist p) s, ok).
  (** network-predicate.cpp:169-184 doesNetifMatchRule; None: lexical_cast throws *)
  Definition netif_match (i : netif) (r : text) : option bool :=
    match find_slash r with
    | Some _ =>
        match lex_network r with
        | None => None
        | Some n => Some (existsb (does_contain n) (nif_addrs i) || text_eqb r STAR || fnmatch r (nif_name i) || text_eqb (nif_ether i) r)
        end
    | None => Some (text_eqb r STAR || fnmatch r (nif_name i) || text_eqb (nif_ether i) r)
    end.
  (** network-predicate.cpp:195-206 doesAddressMatchRule *)
  Definition addr_match (a : addr) (r : text) : option bool :=
    match find_slash r with
    | Some _ => match lex_network r with None => None | Some n => Some (does_contain n a || text_eqb r STAR) end
    | None => Some (text_eqb r STAR)
    end.
  (** std::any_of, std::none_of with a function that may throw *)
  Fixpoint any_of (f : text -> option bool) (l : list text) : option bool :=
    match l with
    | [] => Some false
    | x :: l => match f x with None => None | Some true => Some true | Some false => any_of f l end
    end.
  (** network-predicate.cpp:186-193, 208-215 operator() *)
  Definition accepts (f : text -> option bool) (p : predicate) : option bool :=
    match any_of f (whitelist p) with
    | None => None
    | Some false => Some false
    | Some true => match any_of f (blacklist p) with None => None | Some b => Some (negb b) end
    end.
  Definition netif_accepts (p : predicate) (i : netif) : option bool := accepts (netif_match i) p.
  Definition addr_accepts (p : predicate) (a : addr) : option bool := accepts (addr_match a) p.
End Net.
