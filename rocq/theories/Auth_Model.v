(** daemon/mgmt/command-authenticator.cpp: which commands are accepted.  Certificates, their files and the verification of
    signatures are not modelled: [load] gives the certificate in a file, and [check] is the result of the validation of a
    command with a list of trust anchors. *)
From Coq Require Import String Ascii.
From stdpp Require Import gmap strings.
From Verif Require Import Lib Cfg_Model.
Open Scope string_scope.

(** ndn::security::ValidationError: the codes that are told apart *)
Inductive verdict := Valid (signer : string) | MalformedSignature | InvalidKeyLocator | OtherError.
(** ndn::mgmt::AcceptContinuation, RejectReply *)
Inductive answer := Accept (signer : string) | Reject403 | RejectSilent.

Section Auth.
Context {cert command : Type} (load : string -> option cert) (check : list cert -> command -> verdict).

(** a validator: one that accepts everything, or one with trust anchors *)
Inductive validator := AcceptAll | Anchors (l : list cert).
(** command-authenticator.hpp m_validators; [None] is the null pointer *)
Notation auth := (gmap string (option validator)).

(** command-authenticator.cpp:122-129 *)
Definition reset (A : auth) : auth := (fun _ => Some (Anchors [])) <$> A.
(** command-authenticator.cpp:190-200; [None] for the certificate: any.  The result is None if a null pointer is used *)
Definition grant (c : option cert) (m : string) (A : auth) : option auth :=
  match c with
  | None => Some (<[m := Some AcceptAll]> A)
  | Some c =>
      match A !! m with
      | Some (Some (Anchors l)) => Some (<[m := Some (Anchors (l ++ [c]))]> A)
      | Some (Some AcceptAll) => Some A
      | _ => None
      end
  end.
(** command-authenticator.cpp:177-201: false if an exception is thrown *)
Fixpoint grant_all (dry : bool) (c : option cert) (l : list (string * ptree)) (A : auth) : option (auth * bool) :=
  match l with
  | [] => Some (A, true)
  | (m, _) :: l' =>
      match A !! m with
      | None => Some (A, false)
      | Some _ => if dry then grant_all dry c l' A else match grant c m A with Some A' => grant_all dry c l' A' | None => None end
      end
  end.
(** command-authenticator.cpp:135-204 *)
Fixpoint authorize_all (dry : bool) (l : list (string * ptree)) (A : auth) : option (auth * bool) :=
  match l with
  | [] => Some (A, true)
  | (k, t) :: l' =>
      if negb (String.eqb k "authorize") then Some (A, false)
      else
        match pt_child "certfile" t with
        | None => Some (A, false)
        | Some f =>
            let c := if String.eqb (pt_value f) "any" then Some None
                     else match load (pt_value f) with Some c => Some (Some c) | None => None end in
            match c, pt_child "privileges" t with
            | Some c, Some p =>
                match grant_all dry c (pt_children p) A with
                | Some (A', true) => authorize_all dry l' A'
                | r => r
                end
            | _, _ => Some (A, false)
            end
        end
  end.
(** command-authenticator.cpp:119-205 processConfig *)
Definition auth_config (dry : bool) (t : ptree) (A : auth) : option (auth * bool) :=
  let A1 := if dry then A else reset A in
  match pt_children t with
  | [] => Some (A1, false)
  | l => authorize_all dry l A1
  end.
(** command-authenticator.cpp:207-210 makeAuthorization *)
Definition declare (m : string) (A : auth) : auth := match A !! m with Some _ => A | None => <[m := None]> A end.
(** command-authenticator.cpp:212-251: the answer to a command of that module.  None: the module is not in the map
    (std::out_of_range) *)
Definition authorize (m : string) (c : command) (A : auth) : option answer :=
  match A !! m with
  | None => None
  | Some None => Some Reject403
  | Some (Some AcceptAll) => Some (Accept "*")
  | Some (Some (Anchors l)) =>
      Some match check l c with
           | Valid s => Accept s
           | MalformedSignature | InvalidKeyLocator => RejectSilent
           | OtherError => Reject403
           end
  end.

Inductive aevent := ADeclare (m : string) | AConfig (dry : bool) (t : ptree).
Definition auth_step (e : aevent) (A : auth) : option auth :=
  match e with
  | ADeclare m => Some (declare m A)
  | AConfig dry t => fst <$> auth_config dry t A
  end.
Fixpoint auth_run_from (l : list aevent) (A : auth) : option auth :=
  match l with [] => Some A | e :: l' => match auth_step e A with Some A' => auth_run_from l' A' | None => None end end.
Definition auth_run (l : list aevent) : option auth := auth_run_from l ∅.
End Auth.
Arguments AcceptAll {cert}.
