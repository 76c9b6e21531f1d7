(** Management commands on the tables of the forwarder, with their answers: daemon/mgmt/fib-manager.cpp,
    daemon/mgmt/strategy-choice-manager.cpp, daemon/mgmt/forwarder-status-manager.cpp.  Decoding and checking of the parameters
    (ndn-cxx) and the text of answers are not modelled. *)
From stdpp Require Import gmap.
From Verif Require Import Lib Name_Model Packet_Model Nt_Model Tree_Model Tab_Model Fw_Model.
From Verif Require Cs_Model Dnl_Model.

(** ControlParameters of the FIB commands *)
Record fib_params := FibParams { fp_name : name; fp_face : N; fp_cost : N }.
(** ControlParameters of the strategy choice commands *)
Record sc_params := ScParams { sp_name : name; sp_strategy : name }.
(** ControlResponse: a code, and parameters if there is a body *)
Inductive response (P : Type) := Response (code : N) (body : option P).
Arguments Response {P} code body.

Section Mg.
  Variable sort_nexthops : list nexthop -> list nexthop.
  Variable create_strategy : name -> create_result.
  Variable same_type : name -> name -> bool.
  Variable rand : nat -> nat.
  Variable face_order : list N -> list N.
  Variable strategies : name -> strategy.

  (** fib-manager.cpp:142-155 setFaceForSelfRegistration; the tag is the face that the command came from; None is the
      assertion *)
  Definition fib_self (tag : option N) (p : fib_params) : option fib_params :=
    if (fp_face p =? INVALID_FACEID)%N then
      match tag with Some f => Some (FibParams (fp_name p) f (fp_cost p)) | None => None end
    else Some p.
  (** fib-manager.cpp:58-86 addNextHop; its effect on the forwarder, with the signal to strategies, is [fib_mgr_add] *)
  Definition cmd_add_nexthop (tag : option N) (p : fib_params) (s : fw) : option (fw * response fib_params) :=
    match fib_self tag p with
    | None => None
    | Some p =>
        if (MAX_DEPTH <? length (fp_name p))%nat then Some (s, Response 414 None)
        else
          match fw_faces s !! fp_face p with
          | None => Some (s, Response 410 None)
          | Some _ =>
              match fib_mgr_add sort_nexthops rand face_order strategies (fp_name p) (fp_face p) (fp_cost p) s with
              | Some (s', _) => Some (s', Response 200 (Some p))
              | None => None
              end
          end
    end.
  (** fib-manager.cpp:88-122 removeNextHop *)
  Definition cmd_remove_nexthop (tag : option N) (p : fib_params) (s : fw) : option (fw * response fib_params) :=
    match fib_self tag p with
    | None => None
    | Some p =>
        match fib_mgr_remove (fp_name p) (fp_face p) s with
        | Some (s', _) => Some (s', Response 200 (Some p))
        | None => None
        end
    end.
  (** strategy-choice.hpp:89-100 getStatusCode *)
  Definition sc_code (r : insert_result) : N :=
    match r with SC_OK => 200 | SC_NOT_REGISTERED => 404 | SC_EXCEPTION => 409 | SC_DEPTH_EXCEEDED => 414 end.
  (** strategy-choice-manager.cpp:56-75 setStrategy; strategy-choice.cpp:158-167 get *)
  Definition cmd_set_strategy (p : sc_params) (s : fw) : option (fw * response sc_params) :=
    match sc_insert create_strategy same_type (sp_name p) (sp_strategy p) (fw_t s) with
    | None => None
    | Some (T, SC_OK) =>
        match sc_get (sp_name p) T with
        | Some i => Some (set_t T s, Response 200 (Some (ScParams (sp_name p) i)))
        | None => None                                              (* line 72 *)
        end
    | Some (T, r) => Some (set_t T s, Response (sc_code r) None)
    end.
  (** strategy-choice-manager.cpp:77-88 unsetStrategy *)
  Definition cmd_unset_strategy (p : sc_params) (s : fw) : option (fw * response sc_params) :=
    match sc_erase same_type (sp_name p) (fw_t s) with
    | Some T => Some (set_t T s, Response 200 (Some p))
    | None => None
    end.
End Mg.

(** fib-manager.cpp:124-140 listEntries: the rows of the dataset: prefix, and nexthops with their costs.  The order of rows is
    that of the name tree (C12); here it is some order. *)
Definition list_fib (T : tables) : list (name * list (N * N)) :=
  omap (fun ne => (fun fe => (fe_prefix fe, map (fun h => (nh_face h, nh_cost h)) (fe_nexthops fe))) <$> e_fib (snd ne)) (map_to_list (tr T)).
(** strategy-choice-manager.cpp:90-100 listChoices: prefix and instance name *)
Definition list_choices (T : tables) : list (name * name) :=
  omap (fun ne => (fun i => (fst ne, i)) <$> e_sc (snd ne)) (map_to_list (tr T)).

(** forwarder-status-manager.cpp:43-71 collectGeneralStatus, without version and time stamps *)
Record status := Status {
  st_name_tree : N; st_fib : N; st_pit : N; st_measurements : N; st_cs : N;
  st_in_interests : N; st_out_interests : N; st_in_data : N; st_out_data : N; st_in_nacks : N; st_out_nacks : N;
  st_satisfied : N; st_unsatisfied : N;
}.
Definition collect_status (s : fw) : status :=
  Status (N.of_nat (size (tr (fw_t s)))) (fib_n (fw_t s)) (pit_n (fw_t s)) (meas_n (fw_t s)) (N.of_nat (length (Cs_Model.cs_table (fw_cs s))))
    (c_in_interests (fw_cnt s)) (c_out_interests (fw_cnt s)) (c_in_data (fw_cnt s)) (c_out_data (fw_cnt s)) (c_in_nacks (fw_cnt s)) (c_out_nacks (fw_cnt s))
    (c_satisfied (fw_cnt s)) (c_unsatisfied (fw_cnt s)).
