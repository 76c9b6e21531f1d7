(** The nexthops the FIB is to have for the routes of the RIB. *)
From stdpp Require Import gmap.
From Verif Require Import Lib Name_Model Tab_Model Rib_Model Rib_Spec RibFib_Model.

(** the proper prefixes of a name, longest first *)
Definition proper_prefixes (n : name) : list name := map (fun i => take i n) (rev (seq 0 (length n))).
(** the lowest cost of the routes that satisfy p *)
Definition lowest_cost (p : route -> bool) (l : list route) : option N :=
  foldr (fun r c => if p r then match c with None => Some (r_cost r) | Some x => Some (N.min (r_cost r) x) end else c) None l.
Definition captures (l : list route) : bool := existsb rib_capture l.
(** the nearest of the prefixes that has a route for its children on the face decides; a prefix that
    captures hides those that are shorter.  [rho] gives the routes of a prefix *)
Fixpoint inherited_cost (rho : name -> list route) (f : N) (l : list name) : option N :=
  match l with
  | [] => None
  | q :: l' =>
      match lowest_cost (fun r => (r_face r =? f)%N && child_inherit r) (rho q) with
      | Some c => Some c
      | None => if captures (rho q) then None else inherited_cost rho f l'
      end
  end.
Definition wanted (rho : name -> list route) (n : name) (f : N) : option N :=
  match rho n with
  | [] => None
  | l => match lowest_cost (fun r => r_face r =? f)%N l with
         | Some c => Some c
         | None => if captures l then None else inherited_cost rho f (proper_prefixes n)
         end
  end.

(** ** The updates for which the FIB is proved to be what is wanted *)
(** the prefix has a route for its children on the face *)
Definition inherits (R : rib) (q : name) (g : N) : Prop := exists r, r ∈ routes_at R q /\ r_face r = g /\ child_inherit r = true.
Definition safe_register (R : rib) (n : name) (r : route) : Prop :=
  (r_flags r < 4)%N /\                                                      (* the flags are child-inherit and capture *)
  (forall x, x ∈ routes_at R n -> r_face x = r_face r -> r_origin x = r_origin r) /\     (* one origin per face *)
  (child_inherit r = false -> registered R n -> r_face r ∉ inherited_at R n) /\
  (* the first route of a registered prefix that captures: the prefix has no route on a face that shorter prefixes have for their children *)
  (rib_capture r = true -> captures (routes_at R n) = false -> forall x q, x ∈ routes_at R n -> proper_prefix q n -> ~ inherits R q (r_face x)) /\
  (* a route that is replaced *)
  (forall old, route_at R n (r_face r) (r_origin r) = Some old ->
     rib_capture old = rib_capture r /\
     (captures (routes_at R n) = true -> child_inherit old = true -> child_inherit r = false -> forall q, proper_prefix q n -> ~ inherits R q (r_face r))) /\
  (N.of_nat (length (routes_at R n)) < 2 ^ 64 - 1)%N.
Definition safe_unregister (R : rib) (n : name) (r : route) : Prop :=
  forall old, route_at R n (r_face r) (r_origin r) = Some old ->
    (child_inherit old = true \/ rib_capture old = true -> (forall x, x ∈ routes_at R n -> r_face x <> r_face r -> rib_capture x = false) ->
       forall g q, g <> r_face r -> inherits R n g -> proper_prefix q n -> ~ inherits R q g) /\
    (* the last route, which captures *)
    (rib_capture old = true -> routes_at R n = [old] -> (forall d, registered R d -> ~ proper_prefix n d) \/ (forall g q, proper_prefix q n -> ~ inherits R q g)).
Definition safe_event (S : rib_sys) (e : rib_event) : Prop :=
  match e with
  | EUpdate (RibUpdate Register n r) => safe_register (sy_rib S) n r
  | EUpdate (RibUpdate Unregister n r) => safe_unregister (sy_rib S) n r
  | EUpdate (RibUpdate RemoveFace n r) => safe_unregister (sy_rib S) n r /\ sy_dead S (r_face r) = true
  | EFaceUp f => forall n r, r ∈ routes_at (sy_rib S) n -> r_face r <> f      (* face numbers are not used twice *)
  | EFaceDown f => True
  end.
Definition safe_run (l : list rib_event) : Prop :=
  forall l1 e l2 S, l = l1 ++ e :: l2 -> sys_run l1 = Some S -> safe_event S e.
