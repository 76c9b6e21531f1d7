(** What strategy names mean: the vocabulary of C67. *)
From Coq Require Import String Ascii.
From Verif Require Import Lib Name_Model Name_Spec.

(** * Version components *)
(** the number that octets are, most significant first *)
Fixpoint number (l : list N) : N :=
  match l with [] => 0 | b :: l' => b * 256 ^ N.of_nat (length l') + number l' end%N.
Definition is_ver (c : comp) : Prop := c.1 = 54%N /\ (length c.2 = 1 \/ length c.2 = 2 \/ length c.2 = 4 \/ length c.2 = 8).
(** a name with a version: the last version component is [v], and it is not the first component *)
Definition versioned (n base : name) (v : comp) (params : name) : Prop :=
  n = base ++ v :: params /\ base <> [] /\ is_ver v /\ forall c, c ∈ params -> ~ is_ver c.
Definition unversioned (n : name) : Prop := forall c, c ∈ tail n -> ~ is_ver c.

(** * Text *)
Definition chars (s : string) : list N := List.map N_of_ascii (list_ascii_of_string s).
Definition text_comp (s : string) : comp := (8%N, chars s).
Definition digit_text (ds : list Z) : list N := List.map (fun d => Z.to_N (48 + d)) ds.
Fixpoint digit_value (ds : list Z) : Z :=
  match ds with [] => 0 | d :: ds' => d * 10 ^ Z.of_nat (length ds') + digit_value ds' end%Z.
Definition digits (ds : list Z) : Prop := ds <> [] /\ forall d, d ∈ ds -> (0 <= d <= 9)%Z.
(** [t] is decimal for [z], a number of 64 bits with a sign *)
Definition signed_text (t : list N) (z : Z) : Prop :=
  exists ds, digits ds /\ (- 2 ^ 63 <= z < 2 ^ 63)%Z /\
    ((t = digit_text ds \/ t = chars "+" ++ digit_text ds) /\ z = digit_value ds \/ t = chars "-" ++ digit_text ds /\ z = - digit_value ds)%Z.
(** ... without one *)
Definition unsigned_text (t : list N) (z : Z) : Prop :=
  exists ds, digits ds /\ (0 <= z < 2 ^ 64)%Z /\ (t = digit_text ds \/ t = chars "+" ++ digit_text ds) /\ z = digit_value ds.

(** * Parameters: components key~value *)
Definition TILDE : N := 126.
Definition well_formed (params : name) : Prop :=
  forall c, c ∈ params -> exists key value, c.2 = key ++ TILDE :: value /\ key <> [] /\ value <> [] /\ TILDE ∉ key.
(** the parameter [key] is set to [value]: by the last component that sets it *)
Definition sets (c : comp) (key : string) (value : list N) : Prop := c.2 = chars key ++ TILDE :: value.
Definition setting (params : name) (key : string) (value : list N) : Prop :=
  exists before c after, params = before ++ c :: after /\ sets c key value /\ forall c' v', c' ∈ after -> ~ sets c' key v'.
Definition unset (params : name) (key : string) : Prop := forall c v, c ∈ params -> ~ sets c key v.
(** [x] is what the parameter is set to, read by [reads], or else [dflt] *)
Definition given {T} (reads : list N -> T -> Prop) (params : name) (key : string) (dflt x : T) : Prop :=
  unset params key /\ x = dflt \/ exists t, setting params key t /\ reads t x.

(** * Registering and choosing *)
Section choose.
  Context {A : Type}.
  Implicit Types R : list (name * A).
  (** of what is registered under [base], the first one that is not before [from] *)
  Definition first_under R (base from : name) (x : name * A) : Prop :=
    x ∈ R /\ base `prefix_of` x.1 /\ ~ name_lt x.1 from /\
    forall y, y ∈ R -> base `prefix_of` y.1 -> ~ name_lt y.1 from -> ~ name_lt y.1 x.1.
  Definition last_under R (base : name) (x : name * A) : Prop :=
    x ∈ R /\ base `prefix_of` x.1 /\ forall y, y ∈ R -> base `prefix_of` y.1 -> ~ name_lt x.1 y.1.
End choose.

(** * The strategies that NFD has *)
From Verif Require Import Packet_Model St_Model Reg_Model.
Definition spec_text (k : kind) : string :=
  match k with KAccess => "access" | KAsf => "asf" | KBestRoute => "best-route" | KMulticast => "multicast" | KRandom => "random" | KSelfLearning => "self-learning" end.
Definition spec_version (k : kind) : N := match k with KAccess | KRandom | KSelfLearning => 1 | KAsf | KBestRoute | KMulticast => 5 end.
(** /localhost/nfd/strategy/.. *)
Definition spec_prefix (k : kind) : name := List.map text_comp ["localhost"; "nfd"; "strategy"; spec_text k]%string.
Definition spec_name (k : kind) : name := spec_prefix k ++ [(54%N, [spec_version k])].
Definition short (n : name) : Prop :=
  n = List.map text_comp ["localhost"]%string \/ n = List.map text_comp ["localhost"; "nfd"]%string \/ n = List.map text_comp ["localhost"; "nfd"; "strategy"]%string.
Definition all_kinds : list kind := [KAccess; KAsf; KBestRoute; KMulticast; KRandom; KSelfLearning].

Section create.
  (** how text is read as a floating point number *)
  Variable lex_float : list N -> option flt.
  (** the parameters say [c]: what is not set has its default, and the values make sense *)
  Definition retx_says (params : name) (c : retx_cfg) : Prop :=
    given signed_text params "retx-suppression-initial" 10%Z (rx_initial c) /\
    given signed_text params "retx-suppression-max" 250%Z (rx_max c) /\
    given (fun t x => lex_float t = Some x) params "retx-suppression-multiplier" (Fin 1 1) (rx_mult c) /\
    (0 < rx_initial c <= rx_max c)%Z /\ below_one (rx_mult c) = false.
  Definition says (k : kind) (params : name) (s : setup) : Prop :=
    match k with
    | KAccess | KRandom | KSelfLearning => params = [] /\ s = SPlain
    | KBestRoute | KMulticast => well_formed params /\ exists c, s = SRetx c /\ retx_says params c
    | KAsf => well_formed params /\ exists c p t l, s = SAsf c p t l /\ retx_says params c /\
        given signed_text params "probing-interval" 60000%Z p /\ given unsigned_text params "max-timeouts" 3%Z t /\
        given signed_text params "measurements-lifetime" 300000%Z l /\ (1000 <= p < l)%Z
    end.
  Definition plain_params (params : name) : Prop := forall c, c ∈ params -> ~ is_ver c.
  (** what asking for a strategy by a name leads to *)
  Inductive creates : name -> creation -> Prop :=
  | cr_exact k params s : plain_params params -> says k params s -> creates (spec_name k ++ params) (CMade k s (spec_name k ++ params))
  | cr_newest k s : says k [] s -> creates (spec_prefix k) (CMade k s (spec_name k))
  | cr_params k params : plain_params params -> (forall s, ~ says k params s) -> creates (spec_name k ++ params) CThrow
  | cr_older k w params : plain_params params -> (w < spec_version k)%N -> creates (spec_prefix k ++ (54%N, [w]) :: params) CThrow
  | cr_short n : short n -> creates n (CMade KSelfLearning SPlain (n ++ [(54%N, [1%N])]))
  | cr_unknown n : (forall k w params, plain_params params -> n = spec_prefix k ++ (54%N, [w]) :: params -> (spec_version k < w)%N) ->
      (forall k, n <> spec_prefix k) -> ~ short n -> creates n CUnknown.
End create.
