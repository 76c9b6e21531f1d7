(** A run of the hub discovery, as a story of requests and answers. *)
From stdpp Require Import list.
From Verif Require Import Lib Ac_Model.
Open Scope list_scope.

Section autoconfig.
Context {U : Type}.
(** The answers [h] to the registrations of the discovery prefix on the faces [l], in any order. *)
Definition registered (l : list N) (h : list (req U * reply U)) : Prop := h.*1 ≡ₚ map RHubReg l.
Definition some_ok (h : list (req U * reply U)) : Prop := Exists (fun p => p.2 = YOk) h.
(** Multicast discovery: [Some u] if it finds a hub, None if not. *)
Inductive multicast : list (req U * reply U) -> option U -> Prop :=
| mc_error y : (forall l, y <> YFaces l) -> multicast [(RDataset, y)] None
| mc_nofaces : multicast [(RDataset, YFaces [])] None
| mc_noreg l h : l <> [] -> registered l h -> ~ some_ok h -> multicast ((RDataset, YFaces l) :: h) None
| mc_nostrategy l h y : l <> [] -> registered l h -> some_ok h -> y <> YOk -> multicast ((RDataset, YFaces l) :: h ++ [(RStrategy, y)]) None
| mc_nodata l h y : l <> [] -> registered l h -> some_ok h -> (forall u, y <> YHub u) -> multicast ((RDataset, YFaces l) :: h ++ [(RStrategy, YOk); (RHubData, y)]) None
| mc_hub l h u : l <> [] -> registered l h -> some_ok h -> multicast ((RDataset, YFaces l) :: h ++ [(RStrategy, YOk); (RHubData, YHub u)]) (Some u).
(** Connecting to the hub [u]: whether it succeeds. *)
Inductive connects (u : U) : list (req U * reply U) -> bool -> Prop :=
| cn_nocanon y : (forall v, y <> YUri v) -> connects u [(RCanonize u, y)] false
| cn_nocreate v y : (forall f, y <> YFace f) -> connects u [(RCanonize u, YUri v); (RCreate v, y)] false
| cn_noprefix v f y : y <> YOk -> connects u [(RCanonize u, YUri v); (RCreate v, YFace f); (RPrefix f 0, y)] false
| cn_noprefix2 v f y : y <> YOk -> connects u [(RCanonize u, YUri v); (RCreate v, YFace f); (RPrefix f 0, YOk); (RPrefix f 1, y)] false
| cn_ok v f : connects u [(RCanonize u, YUri v); (RCreate v, YFace f); (RPrefix f 0, YOk); (RPrefix f 1, YOk)] true.
(** The first of the other stages that finds a hub. *)
Inductive first_hub : list (sout U) -> option U -> Prop :=
| fh_none : first_hub [] None
| fh_here u o : first_hub (SUri u :: o) (Some u)
| fh_next o r : first_hub o r -> first_hub (SFail :: o) r.
(** A whole run with its result. *)
Inductive story (o : list (sout U)) : list (req U * reply U) -> bool -> Prop :=
| st_multicast h u h' b : multicast h (Some u) -> connects u h' b -> story o (h ++ h') b
| st_other h u h' b : multicast h None -> first_hub o (Some u) -> connects u h' b -> story o (h ++ h') b
| st_nothing h : multicast h None -> first_hub o None -> story o h false.
End autoconfig.
