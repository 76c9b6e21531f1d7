(** What the "tables" section of the configuration says *)
From Coq Require Import String Ascii.
From stdpp Require Import gmap strings.
From Verif Require Import Lib Name_Model Packet_Model Tab_Model Tab_Spec Fw_Model Cfg_Model Cfg_Spec.
From Verif Require Cs_Model.
Open Scope string_scope.
Open Scope list_scope.

(** the capacity of the content store *)
Definition max_packets (t : ptree) (n : N) : Prop :=
  match pt_child "cs_max_packets" t with
  | None => n = 65536%N
  | Some c => number_text (list_ascii_of_string (pt_value c)) n /\ (n < 2 ^ 64)%N
  end.
(** its replacement policy, if one is given *)
Definition policy_is (t : ptree) (k : option Cs_Model.policy_kind) : Prop :=
  match pt_child "cs_policy" t with
  | None => k = None
  | Some c => pt_value c = "lru" /\ k = Some Cs_Model.K_lru \/ pt_value c = "priority_fifo" /\ k = Some Cs_Model.K_pf
  end.
(** what to do with unsolicited Data; dropped unless given *)
Definition unsolicited_is (t : ptree) (u : unsol_policy) : Prop :=
  match pt_child "cs_unsolicited_policy" t with
  | None => u = DropAll
  | Some c => pt_value c = match u with DropAll => "drop-all" | AdmitLocal => "admit-local" | AdmitNetwork => "admit-network" | AdmitAll => "admit-all" end
  end.

Section Spec.
Variable name_of : string -> option name.
Variable can_create : name -> bool.
Variable create_strategy : name -> create_result.
(** the strategy chosen for a prefix *)
Definition chooses (t : ptree) (p x : name) : Prop :=
  exists c k v, pt_child "strategy_choice" t = Some c /\ (k, v) ∈ pt_children c /\ name_of k = Some p /\ name_of (pt_value v) = Some x.
(** every line of strategy_choice has a prefix and the name of a known strategy, and no prefix is on two lines *)
Definition choices_ok (t : ptree) : Prop :=
  forall c, pt_child "strategy_choice" t = Some c ->
    (forall k v, (k, v) ∈ pt_children c -> exists p x, name_of k = Some p /\ name_of (pt_value v) = Some x /\ can_create x = true) /\
    (forall i j k v k' v', pt_children c !! i = Some (k, v) -> pt_children c !! j = Some (k', v') -> name_of k = name_of k' -> i = j).
Definition wellformed (t : ptree) : Prop :=
  (exists n, max_packets t n) /\ (exists k, policy_is t k) /\ (exists u, unsolicited_is t u) /\ choices_ok t.
(** a choice that the strategy choice table takes: the prefix is not too long, the strategy accepts its parameters *)
Definition settable (p x : name) : Prop := length p <= 32 /\ exists i, create_strategy x = Created i.
(** [r] is a line of network_region *)
Definition region_listed (t : ptree) (r : name) : Prop :=
  exists c k v, pt_child "network_region" t = Some c /\ (k, v) ∈ pt_children c /\ name_of k = Some r.
Definition regions_ok (t : ptree) : Prop :=
  forall c k v, pt_child "network_region" t = Some c -> (k, v) ∈ pt_children c -> is_Some (name_of k).
End Spec.

(** nothing but the content store, the policy for unsolicited Data, the network regions and strategies is different *)
Record same_elsewhere (s s' : fw) : Prop := {
  se_faces : fw_faces s' = fw_faces s;
  se_last : fw_last s' = fw_last s;
  se_dnl : fw_dnl s' = fw_dnl s;
  se_hop : fw_hop s' = fw_hop s;
  se_log : fw_log s' = fw_log s;
  se_cnt : fw_cnt s' = fw_cnt s;
  se_now : now (fw_t s') = now (fw_t s);
  se_fib : forall n, fib_at (fw_t s') n = fib_at (fw_t s) n;
  se_pit : forall k, is_Some (pit_at (fw_t s') k) <-> is_Some (pit_at (fw_t s) k);
}.
