(** Properties C10, C11 and C12 once more: the hash table and the prefix-closed map
    on which the tables are modelled stay in agreement under every operation. *)
From stdpp Require Import gmap.
From Verif Require Import Lib Name_Model Nt_Model Nt_Spec Tree_Model Tree_Refine.

Section props.
  Context {E : Type} (e0 : E) (hs : E -> bool) (hc : comp -> N) (opts : ht_options).
  Notation agrees := (agrees e0 hc opts).
  Notation reachable := (nt_reachable e0 hs hc opts).

  Theorem C10_map_new : options_ok opts -> agrees (ht_new opts) ∅.
  Proof. exact (refine_new e0 hs hc opts). Qed.
  Theorem C10_map_lookup t m n : options_ok opts -> reachable t -> agrees t m -> length n <= 32 ->
    exists t' m', nt_lookup e0 hc opts n (length n) t = Some (t', n) /\ t_lookup e0 n m = Some m' /\
      reachable t' /\ agrees t' m'.
  Proof. exact (fun H => refine_lookup e0 hs hc opts H t m n). Qed.
  Theorem C10_map_set t m n e : options_ok opts -> reachable t -> agrees t m -> is_Some (stored e0 hc opts t n) ->
    reachable (nt_set_tables n e t) /\ agrees (nt_set_tables n e t) (<[n := e]> m).
  Proof. exact (fun H => refine_set e0 hs hc opts H t m n e). Qed.
  Theorem C11_map_erase t m n a : options_ok opts -> reachable t -> agrees t m -> is_Some (stored e0 hc opts t n) ->
    exists t' k, nt_erase_if_empty e0 hs hc opts n a t = Some (t', k) /\ reachable t' /\
      agrees t' (t_erase_if_empty hs n a m).
  Proof. exact (fun H => refine_erase e0 hs hc opts H t m n a). Qed.
  Theorem C12_map_lpm t m n sel : options_ok opts -> reachable t -> agrees t m ->
    exists r, nt_lpm e0 hc opts n (fun x => sel (n_name x) (n_tables x)) t = Some r /\
      (fun x => (n_name x, n_tables x)) <$> r = t_lpm n sel m.
  Proof. exact (fun H => refine_lpm e0 hs hc opts H t m n sel). Qed.
  Theorem C12_map_all_matches t m n sel : options_ok opts -> reachable t -> agrees t m ->
    exists l, nt_find_all e0 hc opts n (fun x => sel (n_name x) (n_tables x)) t = Some l /\
      (fun x => (n_name x, n_tables x)) <$> l = t_all_matches n sel m.
  Proof. exact (fun H => refine_all e0 hs hc opts H t m n sel). Qed.
  Theorem C12_map_partial_enumeration t m p sel : options_ok opts -> reachable t -> agrees t m ->
    exists l f0, (forall fuel, f0 <= fuel ->
        nt_partial_enumerate e0 hc opts fuel p (fun x => sel (n_name x) (n_tables x)) t = Some l) /\
      NoDup l /\ forall q, q ∈ l <-> t_visited p sel m q = true.
  Proof. exact (fun H => refine_partial e0 hs hc opts H t m p sel). Qed.
End props.

Print Assumptions C10_map_new.
Print Assumptions C10_map_lookup.
Print Assumptions C10_map_set.
Print Assumptions C11_map_erase.
Print Assumptions C12_map_lpm.
Print Assumptions C12_map_all_matches.
Print Assumptions C12_map_partial_enumeration.
(** The hypotheses are met by every history: see C10_example for a reachable tree. *)
