(** What the RIB is expected to hold, said without its data structures. *)
From stdpp Require Import gmap.
From Verif Require Import Lib Name_Model Rib_Model.

Definition proper_prefix (p n : name) : Prop := p `prefix_of` n /\ p <> n.
(** there is an entry for the prefix *)
Definition registered (R : rib) (n : name) : Prop := is_Some (rb_map R !! n).
(** [p] is the longest registered proper prefix of [n] *)
Definition nearest (R : rib) (n p : name) : Prop :=
  registered R p /\ proper_prefix p n /\ forall q, registered R q -> proper_prefix q n -> q `prefix_of` p.
(** the routes of a prefix *)
Definition routes_at (R : rib) (n : name) : list route := match rb_map R !! n with Some e => re_routes e | None => [] end.
(** the route of a prefix with a given face and origin *)
Definition route_at (R : rib) (n : name) (f o : N) : option route :=
  List.find (fun r => (r_face r =? f)%N && (r_origin r =? o)%N) (routes_at R n).
(** the faces whose routes a prefix inherits *)
Definition inherited_at (R : rib) (n : name) : list N := match rb_map R !! n with Some e => map r_face (re_inherited e) | None => [] end.

(** What can be done to a RIB, one after the other *)
Inductive rib_op :=
| OInsert (n : name) (r : route)
| OErase (n : name) (r : route)
| OInherit (l : list (bool * name * route)).
Definition rib_step (o : rib_op) (R : rib) : option rib :=
  match o with
  | OInsert n r => rib_insert n r R
  | OErase n r => rib_erase n r R
  | OInherit l => option_map (fun m => set_rb_map m R) (modify_inherited l (rb_map R))
  end.
Definition rib_run (l : list rib_op) : option rib := each_of rib_step l rib_empty.

(** all routes, with their prefixes *)
Definition all_routes (R : rib) : list (name * route) :=
  concat (map (fun x => map (pair (fst x)) (re_routes (snd x))) (map_to_list (rb_map R))).
(** re-registering a route does not change its capture flag *)
Definition steady (o : rib_op) (R : rib) : Prop :=
  match o with
  | OInsert n r => forall old, route_at R n (r_face r) (r_origin r) = Some old -> rib_capture old = rib_capture r
  | _ => True
  end.
Definition steady_run (l : list rib_op) : Prop :=
  forall l1 o l2 R, l = l1 ++ o :: l2 -> rib_run l1 = Some R -> steady o R.
