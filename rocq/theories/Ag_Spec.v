(** Which faces get which prefixes. *)
From Coq Require Import String.
From stdpp Require Import list.
From Verif Require Import Lib Net_Model Net_Spec Ag_Model.
Open Scope list_scope.

(** A UDP or TCP face towards one peer. *)
Definition unicast_ip (f : face) (a : addr) : Prop :=
  f_scheme f ∈ ["udp4"; "tcp4"; "udp6"; "tcp6"]%string /\ f_addr f = Some a /\
  match a with V4 b0 _ _ _ => ~ (224 <= b0 < 240)%N | V6 l _ => head l <> Some 255%N end.
Definition within (l : list network) (a : addr) : Prop := exists n, n ∈ l /\ does_contain n a = true.
(** The prefixes that a face is to get. *)
Inductive deserves {Name} (o : options Name) (f : face) : Name -> Prop :=
| d_all p a : unicast_ip f a -> p ∈ o_all_prefixes o -> deserves o f p
| d_on_demand p a : unicast_ip f a -> p ∈ o_prefixes o -> f_on_demand f = true -> ~ within (o_black o) a -> (o_white o = [] \/ within (o_white o) a) -> deserves o f p.
(** The faces that are reported: those of the dataset, and those that are created later and not local. *)
Inductive reported (f : face) : event -> Prop :=
| rp_created : f_local f = false -> reported f (ENotification true f)
| rp_dataset l : f ∈ l -> reported f (EDataset l).
(** Faces as NFD reports them: the host is an address. *)
Definition face_ok (f : face) : Prop := exists a, f_addr f = Some a /\ addr_wf a.
Definition event_ok (e : event) : Prop := match e with ENotification _ f => face_ok f | EDataset l => Forall face_ok l end.
