(** The "tables" section of the configuration: daemon/mgmt/tables-config-section.cpp, on the state of the forwarder *)
From Coq Require Import String Ascii.
From stdpp Require Import gmap strings.
From Verif Require Import Lib Name_Model Packet_Model Tab_Model Fw_Model Cfg_Model.
From Verif Require Cs_Model.
Open Scope string_scope.
Open Scope list_scope.

Section Tc.
(** Name(const std::string&), of ndn-cxx: the name that a URI stands for; None: it throws *)
Variable name_of : string -> option name.
(** Strategy::canCreate (fw/strategy.cpp:85-89), Strategy::create and Strategy::areSameType *)
Variable can_create : name -> bool.
Variable create_strategy : name -> create_result.
Variable same_type : name -> name -> bool.

(** tables-config-section.cpp:33 DEFAULT_CS_MAX_PACKETS *)
Definition DEFAULT_CS_MAX_PACKETS : N := 65536.
(** unsolicited-data-policy.hpp:148 DefaultUnsolicitedDataPolicy *)
Definition DEFAULT_UNSOLICITED : unsol_policy := DropAll.
(** cs-policy.cpp:44-50 Policy::create; the names are in cs-policy-lru.hpp and cs-policy-priority-fifo.hpp *)
Definition create_cs_policy (x : string) : option Cs_Model.policy_kind :=
  if String.eqb x "lru" then Some Cs_Model.K_lru else if String.eqb x "priority_fifo" then Some Cs_Model.K_pf else None.
(** unsolicited-data-policy.cpp:51-57 UnsolicitedDataPolicy::create; the names are in unsolicited-data-policy.hpp:103-142 *)
Definition create_unsolicited (x : string) : option unsol_policy :=
  if String.eqb x "drop-all" then Some DropAll
  else if String.eqb x "admit-local" then Some AdmitLocal
  else if String.eqb x "admit-network" then Some AdmitNetwork
  else if String.eqb x "admit-all" then Some AdmitAll
  else None.

(** std::map<Name, Name>::try_emplace (line 133): None if there is such a key *)
Fixpoint choice_add (p x : name) (l : list (name * name)) : option (list (name * name)) :=
  match l with
  | [] => Some [(p, x)]
  | (q, y) :: l' =>
      match name_cmp p q with
      | Lt => Some ((p, x) :: l)
      | Eq => None
      | Gt => option_map (cons (q, y)) (choice_add p x l')
      end
  end.
(** tables-config-section.cpp:123-137: None is a thrown error *)
Fixpoint read_choices (l : list (string * ptree)) (acc : list (name * name)) : option (list (name * name)) :=
  match l with
  | [] => Some acc
  | (k, t) :: l' =>
      match name_of k, name_of (pt_value t) with
      | Some p, Some x =>
          if can_create x then
            match choice_add p x acc with
            | Some acc' => read_choices l' acc'
            | None => None
            end
          else None
      | _, _ => None
      end
  end.
(** tables-config-section.cpp:143-150; the result is false if it throws, None if an assertion fails *)
Fixpoint insert_choices (l : list (name * name)) (s : fw) : option (fw * bool) :=
  match l with
  | [] => Some (s, true)
  | (p, x) :: l' =>
      match sc_insert create_strategy same_type p x (fw_t s) with
      | None => None
      | Some (T, SC_OK) => insert_choices l' (set_t T s)
      | Some (T, _) => Some (set_t T s, false)
      end
  end.
(** tables-config-section.cpp:120-152 processStrategyChoiceSection *)
Definition process_choices (dry : bool) (t : ptree) (s : fw) : option (fw * bool) :=
  match read_choices (pt_children t) [] with
  | None => Some (s, false)
  | Some l => if dry then Some (s, true) else insert_choices l s
  end.
(** tables-config-section.cpp:163-165; NetworkRegionTable is a std::set: a list without repetitions here *)
Fixpoint insert_regions (l : list (string * ptree)) (s : fw) : fw * bool :=
  match l with
  | [] => (s, true)
  | (k, _) :: l' =>
      match name_of k with
      | None => (s, false)
      | Some r => insert_regions l' (if existsb (name_eqb r) (fw_regions s) then s else set_regions (r :: fw_regions s) s)
      end
  end.
(** tables-config-section.cpp:154-166 processNetworkRegionSection *)
Definition process_regions (dry : bool) (t : ptree) (s : fw) : fw * bool :=
  if dry then (s, true) else insert_regions (pt_children t) (set_regions [] s).

(** the forwarder and TablesConfigSection::m_isConfigured *)
Record tc := Tc { tc_fw : fw; tc_configured : bool }.

(** tables-config-section.cpp:109-117 *)
Definition tables_apply (limit : N) (k : option Cs_Model.policy_kind) (u : unsol_policy) (s : fw) : option fw :=
  option_map (fun c => set_unsol u (set_cs c s)) (Cs_Model.cs_configure limit k (fw_cs s)).
(** an optional child of the section: default if absent, else what the reader makes of it *)
Definition optional {A} (k : string) (read : ptree -> option A) (absent : A) (t : ptree) : option A :=
  match pt_child k t with None => Some absent | Some c => read c end.
(** tables-config-section.cpp:63-118 processConfig; the result is false if it throws, None if an assertion fails *)
Definition tables_config (dry : bool) (t : ptree) (s : tc) : option (tc * bool) :=
  match optional "cs_max_packets" parse_number DEFAULT_CS_MAX_PACKETS t with
  | None => Some (s, false)
  | Some limit =>
  match optional "cs_policy" (fun c => option_map Some (create_cs_policy (pt_value c))) None t with
  | None => Some (s, false)
  | Some k =>
  match optional "cs_unsolicited_policy" (fun c => create_unsolicited (pt_value c)) DEFAULT_UNSOLICITED t with
  | None => Some (s, false)
  | Some u =>
  match match pt_child "strategy_choice" t with None => Some (tc_fw s, true) | Some c => process_choices dry c (tc_fw s) end with
  | None => None
  | Some (s1, false) => Some (Tc s1 (tc_configured s), false)
  | Some (s1, true) =>
  match match pt_child "network_region" t with None => (s1, true) | Some c => process_regions dry c s1 end with
  | (s2, false) => Some (Tc s2 (tc_configured s), false)
  | (s2, true) =>
      if dry then Some (Tc s2 (tc_configured s), true)
      else match tables_apply limit k u s2 with
           | None => None
           | Some s3 => Some (Tc s3 true, true)
           end
  end end end end end.
(** tables-config-section.cpp:49-61 ensureConfigured *)
Definition ensure_configured (s : tc) : option tc :=
  if tc_configured s then Some s
  else option_map (fun c => Tc (set_unsol DEFAULT_UNSOLICITED (set_cs c (tc_fw s))) true) (Cs_Model.cs_set_limit DEFAULT_CS_MAX_PACKETS (fw_cs (tc_fw s))).
End Tc.
