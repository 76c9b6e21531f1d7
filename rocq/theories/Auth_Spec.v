(** What the 'authorizations' section of a configuration grants. *)
From Coq Require Import String Ascii.
From stdpp Require Import gmap strings.
From Verif Require Import Lib Cfg_Model Auth_Model.
Open Scope string_scope.

Section Spec.
Context {cert : Type} (load : string -> option cert).
(** an authorize section is about that certificate, or (None) about any signer *)
Definition is_for (a : ptree) (c : option cert) : Prop :=
  exists f, pt_child "certfile" a = Some f /\
    match c with None => pt_value f = "any" | Some c => pt_value f <> "any" /\ load (pt_value f) = Some c end.
(** it has that module among its privileges *)
Definition lists (a : ptree) (m : string) : Prop := exists p x, pt_child "privileges" a = Some p /\ (m, x) ∈ pt_children p.
(** the configuration grants the module to that certificate, or (None) to anyone *)
Definition gives (t : ptree) (m : string) (c : option cert) : Prop :=
  exists a, ("authorize", a) ∈ pt_children t /\ is_for a c /\ lists a m.
(** there is an authorize section, there is nothing else, and each one has a certificate and privileges, for modules that
    there are *)
Definition correct (known : string -> Prop) (t : ptree) : Prop :=
  pt_children t <> [] /\
  forall k a, (k, a) ∈ pt_children t ->
    k = "authorize" /\ (exists c, is_for a c) /\ (exists p, pt_child "privileges" a = Some p) /\ forall m, lists a m -> known m.
End Spec.
(** a configuration that is put in force *)
Definition in_force (e : aevent) : Prop := match e with AConfig false _ => True | _ => False end.
