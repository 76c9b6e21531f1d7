(** Strategy names, the registry of strategies, instance names and parameters:
    daemon/fw/strategy.{hpp,cpp} and the constructors of the six strategies. *)
From Coq Require Import String Ascii.
From stdpp Require Import gmap.
From Verif Require Import Lib Name_Model Packet_Model Nt_Model Tree_Model Tab_Model Fw_Model St_Model Asf_Model Acc_Model Sl_Model.

(** text as octets *)
Definition octets (s : string) : list N := List.map N_of_ascii (list_ascii_of_string s).
Definition generic (s : string) : comp := (T_GENERIC, octets s).

(** ndn::name::Component::isVersion and toVersion under the typed naming convention (ndn-cxx; the default): TLV-TYPE 54,
    the value being a NonNegativeInteger *)
Definition T_VERSION : N := 54.
Definition nni_length (l : nat) : bool :=
  Nat.eqb l 1 || Nat.eqb l 2 || Nat.eqb l 4 || Nat.eqb l 8.
Definition is_version (c : comp) : bool := (c.1 =? T_VERSION)%N && nni_length (length c.2).
Definition to_version (c : comp) : N := fold_left (fun a b => a * 256 + b)%N c.2 0%N.

(** strategy.hpp:415-420 ParsedInstanceName *)
Record parsed := Parsed { pn_name : name; pn_version : option N; pn_params : name }.
(** strategy.cpp:124-133 parseInstanceName: from component [i] down to the second one *)
Fixpoint parse_from (input : name) (i : nat) : parsed :=
  match i with
  | O => Parsed input None []
  | S j =>
      match nth_error input i with
      | Some c =>
          if is_version c then Parsed (take (S i) input) (Some (to_version c)) (drop (S i) input)
          else parse_from input j
      | None => parse_from input j
      end
  end.
Definition parse_instance (input : name) : parsed := parse_from input (length input - 1).
(** strategy.cpp:135-143 makeInstanceName.  None is the assertion *)
Definition last_comp (n : name) : option comp := nth_error n (length n - 1).
Definition make_instance (input strategy_name : name) : option name :=
  match last_comp strategy_name with
  | Some v => if is_version v then Some (if existsb is_version input then input else input ++ [v]) else None
  | None => None
  end.

(** * The registry: a std::map from names to constructors *)
Section registry.
  Context {A : Type}.
  Definition registry : Type := list (name * A).
  (** std::map::lower_bound: what is before it, last first, and what is from it on *)
  Fixpoint lower_bound (k : name) (before R : registry) : registry * registry :=
    match R with
    | [] => (before, [])
    | x :: R' => match name_cmp x.1 k with
                 | Lt => lower_bound k (x :: before) R'
                 | _ => (before, R)
                 end
    end.
  (** strategy.hpp:54-65 registerType.  None: one of the assertions, that the name has two components or more, ends in a
      version and is not registered yet *)
  Definition register_type (n : name) (a : A) (R : registry) : option registry :=
    match last_comp n with
    | Some v =>
        if is_version v && (1 <? length n)%nat then
          let '(b, r) := lower_bound n [] R in
          match r with
          | x :: _ => if name_eqb x.1 n then None else Some (rev b ++ (n, a) :: r)
          | [] => Some (rev b ++ [(n, a)])
          end
        else None
    | None => None
    end.
  (** strategy.cpp:47-83 find *)
  Definition find_type (R : registry) (instance : name) : option (name * A) :=
    let p := parse_instance instance in
    match pn_version p with
    | Some _ =>
        match snd (lower_bound (pn_name p) [] R) with
        | [] => None
        | x :: _ => if name_prefixb (take (length (pn_name p) - 1) (pn_name p)) x.1 then Some x else None
        end
    | None =>
        match pn_name p with
        | [] => None
        | _ =>
            match fst (lower_bound (name_succ (pn_name p)) [] R) with
            | [] => None
            | x :: _ => if name_prefixb (pn_name p) x.1 then Some x else None
            end
        end
    end.
  (** strategy.cpp:85-89 canCreate *)
  Definition can_create (R : registry) (n : name) : bool := match find_type R n with Some _ => true | None => false end.
  (** strategy.cpp:108-112 areSameType: the iterators are the same *)
  Definition same_type_in (R : registry) (n m : name) : bool :=
    match find_type R n, find_type R m with
    | Some x, Some y => name_eqb x.1 y.1
    | None, None => true
    | _, _ => false
    end.
  (** strategy.cpp:114-121 listRegistered *)
  Definition list_registered (R : registry) : list name := List.map fst R.
End registry.
Arguments registry : clear implicits.

(** * Parameters *)
(** std::find for '~', and what is on its two sides *)
Fixpoint cut_tilde (l : list N) : option (list N * list N) :=
  match l with
  | [] => None
  | c :: l' => if (c =? 126)%N then Some ([], l')
               else match cut_tilde l' with Some (p, v) => Some (c :: p, v) | None => None end
  end.
(** strategy.cpp:145-167 parseParameters.  None is std::invalid_argument.  A std::map, as the list of the assignments made,
    newest first *)
Fixpoint parse_params_from (l : name) (acc : list (list N * list N)) : option (list (list N * list N)) :=
  match l with
  | [] => Some acc
  | c :: l' =>
      match cut_tilde c.2 with
      | None => None
      | Some ([], _) => None
      | Some (_, []) => None
      | Some (p, v) => parse_params_from l' ((p, v) :: acc)
      end
  end.
Definition parse_params (l : name) : option (list (list N * list N)) := parse_params_from l [].
Fixpoint text_eqb (a b : list N) : bool :=
  match a, b with
  | [], [] => true
  | x :: a', y :: b' => (x =? y)%N && text_eqb a' b'
  | _, _ => false
  end.
Definition param (key : string) (m : list (list N * list N)) : option (list N) :=
  snd <$> List.find (fun x => text_eqb x.1 (octets key)) m.

(** boost::conversion::try_lexical_convert to an integral type: an optional sign and one or more digits, and the value is
    one of the type *)
Fixpoint digits_value (l : list N) (acc : Z) : option Z :=
  match l with
  | [] => Some acc
  | c :: l' => if (48 <=? c)%N && (c <=? 57)%N then digits_value l' (acc * 10 + Z.of_N (c - 48))%Z else None
  end.
Definition to_digits (l : list N) : option Z := match l with [] => None | _ => digits_value l 0 end.
Definition lex_int64 (l : list N) : option Z :=
  match l with
  | c :: l' =>
      if (c =? 45)%N then
        match to_digits l' with Some v => if (v <=? INT64_MAX + 1)%Z then Some (- v)%Z else None | None => None end
      else
        match to_digits (if (c =? 43)%N then l' else l) with
        | Some v => if (v <=? INT64_MAX)%Z then Some v else None
        | None => None
        end
  | [] => None
  end.
Definition UINT64_MAX : Z := 18446744073709551615.
Definition lex_uint64 (l : list N) : option Z :=
  match l with
  | c :: l' =>
      match to_digits (if (c =? 43)%N then l' else l) with
      | Some v => if (v <=? UINT64_MAX)%Z then Some v else None
      | None => None
      end
  | [] => None
  end.
(** strategy.hpp:487-502 getOrDefault for a signed type; None is std::invalid_argument *)
Definition get_signed {T} (convert : list N -> option T) (key : string) (dflt : T) (m : list (list N * list N)) : option T :=
  match param key m with None => Some dflt | Some v => convert v end.
(** strategy.hpp:504-523 getOrDefault for an unsigned type *)
Definition get_unsigned (key : string) (dflt : Z) (m : list (list N * list N)) : option Z :=
  match param key m with
  | None => Some dflt
  | Some v => if existsb (N.eqb 45) v then None else lex_uint64 v
  end.

(** * The strategies *)
Inductive kind := KAccess | KAsf | KBestRoute | KMulticast | KRandom | KSelfLearning.
Definition strategy_prefix (s : string) : name := [generic "localhost"; generic "nfd"; generic "strategy"; generic s].
Definition version (v : N) : comp := (T_VERSION, [v]).
(** X::getStrategyName: access-strategy.cpp:53-57, asf-strategy.cpp:69-74, best-route-strategy.cpp:53-58,
    multicast-strategy.cpp:53-58, random-strategy.cpp:51-56, self-learning-strategy.cpp:61-66 *)
Definition strategy_name (k : kind) : name :=
  match k with
  | KAccess => strategy_prefix "access" ++ [version 1]
  | KAsf => strategy_prefix "asf" ++ [version 5]
  | KBestRoute => strategy_prefix "best-route" ++ [version 5]
  | KMulticast => strategy_prefix "multicast" ++ [version 5]
  | KRandom => strategy_prefix "random" ++ [version 1]
  | KSelfLearning => strategy_prefix "self-learning" ++ [version 1]
  end.
(** what a constructor makes of the parameters *)
Inductive setup :=
| SPlain
| SRetx (c : retx_cfg)
| SAsf (c : retx_cfg) (probing max_timeouts lifetime : Z).

Section constructors.
  (** try_lexical_convert to float *)
  Variable lex_float : list N -> option flt.
  (** retx-suppression-exponential.cpp:130-141 construct *)
  Definition retx_construct (m : list (list N * list N)) : option retx_cfg :=
    match get_signed lex_int64 "retx-suppression-initial" 10%Z m,
          get_signed lex_int64 "retx-suppression-max" 250%Z m,
          get_signed lex_float "retx-suppression-multiplier" (Fin 1 1) m with
    | Some i, Some x, Some f => retx_new i x f
    | _, _, _ => None
    end.
  (** asf-strategy.cpp:46-59; asf-probing-module.cpp:221-231 *)
  Definition asf_setup (m : list (list N * list N)) : option setup :=
    match retx_construct m,
          get_signed lex_int64 "probing-interval" 60000%Z m,
          get_unsigned "max-timeouts" 3%Z m,
          get_signed lex_int64 "measurements-lifetime" 300000%Z m with
    | Some c, Some p, Some t, Some l =>
        if (p <? 1000)%Z then None else if (l <=? p)%Z then None else Some (SAsf c p t l)
    | _, _, _, _ => None
    end.
  Definition configure (k : kind) (params : name) : option setup :=
    match k with
    | KAccess | KRandom | KSelfLearning => match params with [] => Some SPlain | _ => None end
    | KBestRoute | KMulticast =>
        match parse_params params with Some m => SRetx <$> retx_construct m | None => None end
    | KAsf => match parse_params params with Some m => asf_setup m | None => None end
    end.
  (** the constructors: access-strategy.cpp:37-50, asf-strategy.cpp:36-67, best-route-strategy.cpp:35-51, multicast-strategy.cpp:35-51,
      random-strategy.cpp:36-49, self-learning-strategy.cpp:47-59.  None: std::invalid_argument *)
  Definition construct (k : kind) (n : name) : option (setup * name) :=
    let p := parse_instance n in
    match last_comp (strategy_name k), configure k (pn_params p), make_instance n (strategy_name k) with
    | Some v, Some c, Some inst =>
        match pn_version p with
        | Some w => if (w =? to_version v)%N then Some (c, inst) else None
        | None => Some (c, inst)
        end
    | _, _, _ => None
    end.

  (** what is registered before main: NFD_REGISTER_STRATEGY in each of the six files, in any order *)
  Fixpoint register_all (l : list kind) (R : registry kind) : option (registry kind) :=
    match l with
    | [] => Some R
    | k :: l' => match register_type (strategy_name k) k R with Some R' => register_all l' R' | None => None end
    end.

  Inductive creation := CMade (k : kind) (c : setup) (instance : name) | CUnknown | CThrow.
  (** strategy.cpp:91-106 create *)
  Definition create (R : registry kind) (n : name) : creation :=
    match find_type R n with
    | None => CUnknown
    | Some (_, k) => match construct k n with Some (c, inst) => CMade k c inst | None => CThrow end
    end.
  (** the same, as table/strategy-choice.cpp:65-110 sees it *)
  Definition create_for_table (R : registry kind) (n : name) : create_result :=
    match create R n with CMade _ _ inst => Created inst | CUnknown => NotRegistered | CThrow => CreateException end.
End constructors.

(** * The program of a strategy *)
Record oracles := Oracles {
  or_know : fw -> name -> name -> known_of; or_due : fw -> name -> name -> bool; or_has_info : fw -> name -> N -> bool;
  or_double : nat -> Z * Z;
  or_rto : list Z -> Z; or_fit : fw -> pit_key -> N -> list Z;
  or_get : N -> option Z; or_put : Z -> N -> N;
  or_order : list N -> list N }.
Definition program (o : oracles) (k : kind) (c : setup) : strategy :=
  match k, c with
  | KAccess, _ => access_strategy (or_rto o) (or_fit o)
  | KAsf, SAsf r _ _ _ => asf_strategy (or_know o) (or_due o) (or_has_info o) (or_double o) (or_order o) r
  | KBestRoute, SRetx r => best_route (or_order o) r
  | KMulticast, SRetx r => multicast r
  | KRandom, _ => random_strategy (or_order o)
  | KSelfLearning, _ => self_learning (or_get o) (or_put o) (or_order o)
  | _, _ => random_strategy (or_order o)                             (* does not occur: see [configure] *)
  end.
(** the program of the strategy object that has an instance name.  An object keeps its type: where the instance name alone
    would not lead to the type again, the name that was asked for does *)
Definition program_of (lex_float : list N -> option flt) (o : oracles) (R : registry kind) (instance : name) : strategy :=
  match create lex_float R instance with
  | CMade k c _ => program o k c
  | _ => match create lex_float R (take (length instance - 1) instance) with
         | CMade k c _ => program o k c
         | _ => random_strategy (or_order o)                         (* no object has such a name *)
         end
  end.
