(** Properties C10, C11 and C12: the name tree.

    Each theorem holds for every type [E] of attached table entries, every hash
    function [hc] of name components (including ones that always collide), and every
    load-factor options [opts] accepted by the constructor.  [nt_reachable] ranges
    over all histories of lookup, eraseIfEmpty and table-entry updates. *)
From stdpp Require Import gmap.
From Verif Require Import Lib Name_Model Nt_Model Nt_Spec Nt_Run.

Section props.
  Context {E : Type} (e0 : E) (hs : E -> bool) (hc : comp -> N) (opts : ht_options).
  Notation hashtable := (hashtable (E:=E)).
  Notation node := (node (E:=E)).
  (** exact-match search, and what is attached to the entry found *)
  Notation entry t n := (nt_find_exact e0 hc opts n None t).
  Notation stored := (stored e0 hc opts).
  Notation reachable := (nt_reachable e0 hs hc opts).

  (** C10: a new tree stores nothing. *)
  Theorem C10_new n : options_ok opts -> stored (ht_new opts) n = None.
  Proof. exact (fun H => run_new e0 hs hc opts H n). Qed.

  (** C10: a lookup succeeds, returns the entry for the requested prefix, adds
      exactly the missing prefixes and changes nothing else — whether or not the
      table is resized on the way. *)
  Theorem C10_lookup t n len : options_ok opts -> reachable t -> len <= length n -> len <= 32 ->
    exists t', nt_lookup e0 hc opts n len t = Some (t', take len n) /\ reachable t' /\
      after_lookup e0 (take len n) (stored t) (stored t').
  Proof. exact (fun H => run_lookup e0 hs hc opts H t n len). Qed.

  (** C10: an update of what is attached to one entry changes that entry only. *)
  Theorem C10_set t n e : options_ok opts -> reachable t -> is_Some (stored t n) ->
    reachable (nt_set_tables n e t) /\
    forall k, stored (nt_set_tables n e t) k = if bool_decide (k = n) then Some e else stored t k.
  Proof. exact (fun H => run_set e0 hs hc opts H t n e). Qed.

  (** C10: the bucket count never falls below the configured minimum. *)
  Theorem C10_min_buckets t : options_ok opts -> reachable t -> (o_min opts <= n_buckets t)%N.
  Proof. exact (fun H => run_buckets e0 hs hc opts H t). Qed.

  (** C10: size() is the number of stored names. *)
  Theorem C10_size t : options_ok opts -> reachable t ->
    holds_exactly (stored t) (N.to_nat (ht_size t)).
  Proof. exact (fun H => run_size e0 hs hc opts H t). Qed.

  (** C11: with a name, all its prefixes are stored; depth is at most 32. *)
  Theorem C11_prefix_closed t : options_ok opts -> reachable t ->
    prefix_closed (stored t) /\ forall n, is_Some (stored t n) -> length n <= 32.
  Proof. exact (fun H R => conj (run_closed e0 hs hc opts H t R) (fun n => run_depth e0 hs hc opts H t n R)). Qed.

  (** C11: the parent link is the immediate prefix; the child links are exactly the
      stored names one component longer, each once. *)
  Theorem C11_links t n x : options_ok opts -> reachable t -> entry t n = Some x ->
    n_name x = n /\
    n_parent x = (if decide (n = []) then None else Some (take (length n - 1) n)) /\
    NoDup (n_children x) /\
    (forall c, c ∈ n_children x <-> is_Some (stored t c) /\ exists k, c = n ++ [k]).
  Proof. exact (fun H => run_links e0 hs hc opts H t n x). Qed.

  (** C11: eraseIfEmpty never fails and removes exactly the entry and those of its
      ancestors that hold nothing and lead to nothing else; the count it returns is
      the number of entries removed. *)
  Theorem C11_erase t n a : options_ok opts -> reachable t -> is_Some (stored t n) ->
    exists t' k, nt_erase_if_empty e0 hs hc opts n a t = Some (t', k) /\ reachable t' /\
      after_erase hs n a (stored t) (stored t') /\ ht_size t = (ht_size t' + N.of_nat k)%N.
  Proof. exact (fun H => run_erase e0 hs hc opts H t n a). Qed.

  (** C12: the three longest-prefix searches return the longest stored prefix of
      the name that the selector accepts. *)
  Theorem C12_lpm t n sel : options_ok opts -> reachable t ->
    exists r, nt_lpm e0 hc opts n sel t = Some r /\
      is_longest (fun q => exists y, entry t q = Some y /\ sel y = true /\ q `prefix_of` n) (n_name <$> r) /\
      (forall x, r = Some x -> entry t (n_name x) = Some x).
  Proof. exact (fun H => run_lpm e0 hs hc opts H t n sel). Qed.

  Theorem C12_lpm_entry t n sel : options_ok opts -> reachable t -> is_Some (stored t n) ->
    exists r, nt_lpm_entry e0 hc opts n sel t = Some r /\
      is_longest (fun q => exists y, entry t q = Some y /\ sel y = true /\ q `prefix_of` n) (n_name <$> r) /\
      (forall x, r = Some x -> entry t (n_name x) = Some x).
  Proof. exact (fun H => run_lpm_entry e0 hs hc opts H t n sel). Qed.

  (** [at_]: the entry the PIT entry named [n] hangs on *)
  Theorem C12_lpm_pit t n at_ sel : options_ok opts -> reachable t -> is_Some (stored t at_) -> at_ `prefix_of` n ->
    exists r, nt_lpm_pit e0 hc opts n at_ sel t = Some r /\
      is_longest (fun q => exists y, entry t q = Some y /\ sel y = true /\ q `prefix_of` n) (n_name <$> r) /\
      (forall x, r = Some x -> entry t (n_name x) = Some x).
  Proof. exact (fun H => run_lpm_pit e0 hs hc opts H t n at_ sel). Qed.

  (** C12: full enumeration visits every selected entry exactly once. *)
  Theorem C12_full_enumeration t sel fuel : options_ok opts -> reachable t -> N.to_nat (ht_size t) < fuel ->
    exists l, nt_full_enumerate fuel sel t = Some l /\ NoDup (n_name <$> l) /\
      forall x, x ∈ l <-> entry t (n_name x) = Some x /\ sel x = true.
  Proof. exact (fun H => run_full e0 hs hc opts H t sel fuel). Qed.

  (** C12: subtree enumeration terminates and visits exactly once, parents before
      descendants, every entry under [p] whose selector wants it and all of whose
      ancestors down from [p] want their children. *)
  Theorem C12_partial_enumeration t p sel : options_ok opts -> reachable t ->
    exists l f0, (forall fuel, f0 <= fuel -> nt_partial_enumerate e0 hc opts fuel p sel t = Some l) /\
      NoDup l /\ StronglySorted (fun a b : name => b `prefix_of` a -> a = b) l /\
      forall q, q ∈ l <-> exists y, entry t q = Some y /\ p `prefix_of` q /\ (sel y).1 = true /\
        forall r z, p `prefix_of` r -> r `prefix_of` q -> r <> q -> entry t r = Some z -> (sel z).2 = true.
  Proof. exact (fun H => run_partial e0 hs hc opts H t p sel). Qed.

  (** C12: findAllMatches visits the selected stored prefixes, longest first. *)
  Theorem C12_all_matches t n sel : options_ok opts -> reachable t ->
    exists l, nt_find_all e0 hc opts n sel t = Some l /\
      StronglySorted (fun a b : node => length (n_name b) < length (n_name a)) l /\
      forall x, x ∈ l <-> entry t (n_name x) = Some x /\ sel x = true /\ n_name x `prefix_of` n.
  Proof. exact (fun H => run_all e0 hs hc opts H t n sel). Qed.
End props.

(** the options NFD itself uses are acceptable *)
Theorem C10_default_options size : (0 < size)%N -> options_ok (default_options size).
Proof. exact (default_options_ok size). Qed.

Print Assumptions C10_new.
Print Assumptions C10_lookup.
Print Assumptions C10_set.
Print Assumptions C10_min_buckets.
Print Assumptions C10_size.
Print Assumptions C11_prefix_closed.
Print Assumptions C11_links.
Print Assumptions C11_erase.
Print Assumptions C12_lpm.
Print Assumptions C12_lpm_entry.
Print Assumptions C12_lpm_pit.
Print Assumptions C12_full_enumeration.
Print Assumptions C12_partial_enumeration.
Print Assumptions C12_all_matches.
Print Assumptions C10_default_options.

(** ** A concrete tree meeting the hypotheses: 2 initial buckets, a hash function
    with collisions; payload = a flag *)
Section example.
  Let o := default_options 2.
  Let h (c : comp) : N := (c.1 mod 2)%N.
  Let c (k : N) : comp := (k, [k]).
  Let ops : list (nt_op bool) :=
    [NLookup [c 1; c 2; c 3] 3; NSet [c 1; c 2; c 3] true; NLookup [c 1; c 4] 2;
     NLookup [c 5; c 6] 2; NSet [c 5] true].
  Let t1 : hashtable := default (ht_new o) (nt_run_checked false id h o ops (ht_new o)).

  Lemma example_tree_reachable : nt_reachable false id h o t1.
  Proof.
    apply (run_checked false id h o ops (ht_new o)); [apply nt_reach_new|].
    vm_compute. reflexivity.
  Qed.

  Example C10_example : options_ok o /\ nt_reachable false id h o t1 /\ ht_size t1 = 7%N /\
    n_buckets t1 = 16%N /\ stored false h o t1 [c 1; c 2; c 3] = Some true.
  Proof.
    split; [by apply C10_default_options|]. split; [exact example_tree_reachable|]. by vm_compute.
  Qed.
  (** erasing /5/6 removes it alone since /5 holds a table entry; after detaching
      /1/2/3's entry, erasing it removes /1/2 too but not /1, which leads to /1/4 *)
  Example C11_example :
    (snd <$> nt_erase_if_empty false id h o [c 5; c 6] true t1) = Some 1 /\
    (snd <$> nt_erase_if_empty false id h o [c 1; c 2; c 3] true
               (nt_set_tables [c 1; c 2; c 3] false t1)) = Some 2.
  Proof. by vm_compute. Qed.
  Example C12_example :
    (option_map n_name <$> nt_lpm false h o [c 1; c 2; c 3; c 9] (fun x => n_tables x) t1)
      = Some (Some [c 1; c 2; c 3]) /\
    nt_partial_enumerate false h o 100 [c 1] (fun x => (true, true)) t1
      = Some [[c 1]; [c 1; c 2]; [c 1; c 2; c 3]; [c 1; c 4]].
  Proof. by vm_compute. Qed.
End example.
