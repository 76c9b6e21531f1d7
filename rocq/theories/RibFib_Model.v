(** RIB updates and the FIB: what the forwarder does with the FIB updates of one RIB update, each of
    which it answers (fib-manager.cpp, fib-updater.cpp, rib.cpp).  Commands that are lost or answered
    late are in RibQueue_Model.v *)
From stdpp Require Import gmap.
From Verif Require Import Lib Name_Model Tab_Model Rib_Model.

(** the cost of the nexthop of a prefix on a face *)
Definition fib_view : Type := name -> N -> option N.
(** fib-manager.cpp:58-121 addNextHop (410 for an unknown face), removeNextHop *)
Definition fib_do (dead : N -> bool) (u : fib_update) (F : fib_view) : fib_view :=
  if dead (fu_face u) then F
  else fun n f => if name_eqb n (fu_name u) && (f =? fu_face u)%N then (if fu_add u then Some (fu_cost u) else None) else F n f.

Record rib_sys := RibSys { sy_rib : rib; sy_fib : fib_view; sy_dead : N -> bool }.
Inductive rib_event :=
| EUpdate (u : rib_update)
| EFaceUp (f : N)
| EFaceDown (f : N).   (* the forwarder removes the face and its nexthops: cleanup.cpp:32-50, forwarder.cpp:76-80 *)
(** fib-updater.cpp:45-62,217-300 with every command answered before the next event.  The updates of
    the batch face are sent first; if one of them is refused the RIB update fails.  None: undefined
    behaviour or a failed assertion *)
Definition sys_step (e : rib_event) (S : rib_sys) : option rib_sys :=
  match e with
  | EUpdate u =>
      do c := compute (rb_map (sy_rib S)) u in
      if sy_dead S (u_face c) && existsb fu_add (u_batch c) then Some S
      else
        do R := rib_apply u (u_inh c) (sy_rib S) in
        Some (RibSys R (fold_left (fun F x => fib_do (sy_dead S) x F) (u_batch c ++ u_other c) (sy_fib S)) (sy_dead S))
  | EFaceUp f => Some (RibSys (sy_rib S) (sy_fib S) (fun g => if (g =? f)%N then false else sy_dead S g))
  | EFaceDown f => Some (RibSys (sy_rib S) (fun n g => if (g =? f)%N then None else sy_fib S n g) (fun g => if (g =? f)%N then true else sy_dead S g))
  end.
(** at first nothing is registered and no face exists *)
Definition sys_init : rib_sys := RibSys rib_empty (fun _ _ => None) (fun _ => true).
Definition sys_run (l : list rib_event) : option rib_sys := each_of sys_step l sys_init.
