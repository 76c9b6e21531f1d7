(** The RIB and the computation of FIB updates (daemon/rib). *)
From stdpp Require Import gmap.
From Verif Require Import Lib Name_Model Tab_Model.

(** route.hpp:47-120.  The prefix announcement and the expiration event of a route are not modelled *)
Record route := Route { r_face : N; r_origin : N; r_cost : N; r_flags : N; r_expires : option Z }.
(** ndn-cxx RouteFlagsTraits: ROUTE_FLAG_CHILD_INHERIT = 1, ROUTE_FLAG_CAPTURE = 2 *)
Definition child_inherit (r : route) : bool := N.testbit (r_flags r) 0.
Definition rib_capture (r : route) : bool := N.testbit (r_flags r) 1.

(** rib-entry.hpp.  Pointers to other entries are their names; [re_id] tells entries at the same
    name, one after the other, apart *)
Record rib_entry := RibEntry {
  re_id : N;
  re_routes : list route;
  re_ncap : N;                  (* m_nRoutesWithCaptureSet *)
  re_inherited : list route;
  re_parent : option name;
  re_children : list name;
}.
Definition set_re_routes (l : list route) (e : rib_entry) : rib_entry := RibEntry (re_id e) l (re_ncap e) (re_inherited e) (re_parent e) (re_children e).
Definition set_re_ncap (n : N) (e : rib_entry) : rib_entry := RibEntry (re_id e) (re_routes e) n (re_inherited e) (re_parent e) (re_children e).
Definition set_re_inherited (l : list route) (e : rib_entry) : rib_entry := RibEntry (re_id e) (re_routes e) (re_ncap e) l (re_parent e) (re_children e).
Definition set_re_parent (p : option name) (e : rib_entry) : rib_entry := RibEntry (re_id e) (re_routes e) (re_ncap e) (re_inherited e) p (re_children e).
Definition set_re_children (l : list name) (e : rib_entry) : rib_entry := RibEntry (re_id e) (re_routes e) (re_ncap e) (re_inherited e) (re_parent e) l.

(** * rib-entry.cpp *)
(** rib-entry.cpp:34-38 compareFaceIdAndOrigin *)
Definition same_route (a b : route) : bool := (r_face a =? r_face b)%N && (r_origin a =? r_origin b)%N.
(** rib-entry.cpp:41-53 findRoute *)
Definition find_route (r : route) (l : list route) : option route := List.find (fun x => same_route x r) l.
(** rib-entry.cpp:55-70 insertRoute: the entry, and whether the route is new *)
Definition insert_route (r : route) (e : rib_entry) : rib_entry * bool :=
  match find_route r (re_routes e) with
  | None => (set_re_routes (re_routes e ++ [r]) (if rib_capture r then set_re_ncap (inc64 (re_ncap e)) e else e), true)
  | Some _ => (e, false)
  end.
(** removes the first element for which p holds *)
Fixpoint remove_first {A} (p : A -> bool) (l : list A) : list A :=
  match l with [] => [] | x :: l' => if p x then l' else x :: remove_first p l' end.
(** overwrites the first element for which p holds *)
Fixpoint replace_first {A} (p : A -> bool) (y : A) (l : list A) : list A :=
  match l with [] => [] | x :: l' => if p x then y :: l' else x :: replace_first p y l' end.
(** rib-entry.cpp:72-76,100-116 eraseRoute *)
Definition erase_route (r : route) (e : rib_entry) : rib_entry :=
  match find_route r (re_routes e) with
  | None => e
  | Some x => set_re_routes (remove_first (fun x => same_route x r) (re_routes e)) (if rib_capture x then set_re_ncap (dec64 (re_ncap e)) e else e)
  end.
(** rib-entry.cpp:78-82 hasFaceId *)
Definition has_face (f : N) (e : rib_entry) : bool := existsb (fun r => r_face r =? f)%N (re_routes e).
(** rib-entry.hpp:142-146 hasCapture *)
Definition has_capture (e : rib_entry) : bool := (0 <? re_ncap e)%N.
(** rib-entry.cpp:118-141 inherited routes, which are told apart by face *)
Definition add_inherited (r : route) (e : rib_entry) : rib_entry := set_re_inherited (re_inherited e ++ [r]) e.
Definition remove_inherited (r : route) (e : rib_entry) : rib_entry :=
  set_re_inherited (List.filter (fun x => negb (r_face x =? r_face r)%N) (re_inherited e)) e.
Definition has_inherited (r : route) (e : rib_entry) : bool := existsb (fun x => r_face x =? r_face r)%N (re_inherited e).
(** rib-entry.cpp:143-153 hasChildInheritOnFaceId *)
Definition child_inherit_on (f : N) (e : rib_entry) : bool := existsb (fun r => (r_face r =? f)%N && child_inherit r) (re_routes e).
(** rib-entry.cpp:155-175, 201-223: the first of the cheapest routes for which p holds *)
Definition lowest (p : route -> bool) (l : list route) : option route :=
  fold_left (fun c r => if p r then match c with None => Some r | Some x => if (r_cost r <? r_cost x)%N then Some r else c end else c) l None.
Definition lowest_on (f : N) (e : rib_entry) : option route := lowest (fun r => r_face r =? f)%N (re_routes e).
Definition lowest_inherit_on (f : N) (e : rib_entry) : option route := lowest (fun r => (r_face r =? f)%N && child_inherit r) (re_routes e).
(** rib-entry.cpp:177-199 getRouteWithSecondLowestCostByFaceId; of routes of equal cost
    std::nth_element may pick any, here it is the first *)
Fixpoint ins_cost (r : route) (l : list route) : list route :=
  match l with [] => [r] | x :: l' => if (r_cost r <? r_cost x)%N then r :: l else x :: ins_cost r l' end.
Definition second_on (f : N) (e : rib_entry) : option route :=
  match fold_left (fun acc r => ins_cost r acc) (List.filter (fun r => r_face r =? f)%N (re_routes e)) [] with
  | _ :: r :: _ => Some r
  | _ => None
  end.

(** * rib.cpp *)
Record rib := Rib {
  rb_map : gmap name rib_entry;      (* m_rib *)
  rb_faces : list (N * N);           (* m_faceEntries: face, entry (re_id) *)
  rb_n : N;                          (* m_nItems *)
  rb_next : N;                       (* the next re_id *)
}.
Definition rib_empty : rib := Rib ∅ [] 0 0.
Definition set_rb_map (m : gmap name rib_entry) (R : rib) : rib := Rib m (rb_faces R) (rb_n R) (rb_next R).
(** rib.cpp:195-206 findParent: from the longest proper prefix down *)
Fixpoint find_parent_at (m : gmap name rib_entry) (n : name) (i : nat) : option name :=
  match i with
  | O => None
  | S i' => match m !! take i' n with Some _ => Some (take i' n) | None => find_parent_at m n i' end
  end.
Definition find_parent (m : gmap name rib_entry) (n : name) : option name := find_parent_at m n (length n).
(** the names of m_rib, a std::map, in order *)
Fixpoint ins_name (n : name) (l : list name) : list name :=
  match l with [] => [n] | x :: l' => match name_cmp n x with Gt => x :: ins_name n l' | _ => n :: l end end.
Definition rib_names (m : gmap name rib_entry) : list name := foldr ins_name [] (map fst (map_to_list m)).
Fixpoint take_while {A} (p : A -> bool) (l : list A) : list A := match l with [] => [] | x :: l' => if p x then x :: take_while p l' else [] end.
Fixpoint after (n : name) (l : list name) : list name := match l with [] => [] | x :: l' => if name_eqb x n then l' else after n l' end.
(** rib.cpp:208-227 findDescendants *)
Definition find_descendants (m : gmap name rib_entry) (n : name) : list name :=
  match m !! n with Some _ => take_while (name_prefixb n) (after n (rib_names m)) | None => [] end.
(** rib.cpp:229-241 findDescendantsForNonInsertedName *)
Definition find_descendants_new (m : gmap name rib_entry) (n : name) : list name := List.filter (name_prefixb n) (rib_names m).

Definition upd_at (n : name) (f : rib_entry -> rib_entry) (m : gmap name rib_entry) : gmap name rib_entry :=
  match m !! n with Some e => <[n := f e]> m | None => m end.
(** rib-entry.cpp:84-98 addChild, removeChild; None is a failed assertion *)
Definition add_child (p c : name) (m : gmap name rib_entry) : option (gmap name rib_entry) :=
  match m !! c with
  | None => None
  | Some e => match re_parent e with
              | Some _ => None
              | None => Some (upd_at p (fun e => set_re_children (re_children e ++ [c]) e) (upd_at c (set_re_parent (Some p)) m))
              end
  end.
Definition remove_child (p c : name) (m : gmap name rib_entry) : option (gmap name rib_entry) :=
  match m !! c with
  | None => None
  | Some e => match re_parent e with
              | Some q => if name_eqb p q then Some (upd_at p (fun e => set_re_children (List.filter (fun x => negb (name_eqb x c)) (re_children e)) e) (upd_at c (set_re_parent None) m)) else None
              | None => None
              end
  end.
Fixpoint each_of {A S} (f : A -> S -> option S) (l : list A) (s : S) : option S :=
  match l with [] => Some s | x :: l' => match f x s with Some s' => each_of f l' s' | None => None end end.
Definition opt_name_eqb (a b : option name) : bool :=
  match a, b with Some x, Some y => name_eqb x y | None, None => true | _, _ => false end.
(** rib.cpp:128-138, one pass of the loop: a descendant of the new entry [n] moves below it if it has
    the same parent *)
Definition adopt (n : name) (parent : option name) (c : name) (m : gmap name rib_entry) : option (gmap name rib_entry) :=
  match m !! c with
  | None => None
  | Some ce =>
      if opt_name_eqb (re_parent ce) parent then
        match (match parent with Some p => remove_child p c m | None => Some m end) with
        | Some m' => add_child n c m'
        | None => None
        end
      else Some m
  end.
(** rib.cpp:83-147 insert; the signals it emits are not modelled *)
Definition rib_insert (n : name) (r : route) (R : rib) : option rib :=
  match rb_map R !! n with
  | Some e =>
      let '(e1, is_new) := insert_route r e in
      if is_new then Some (Rib (<[n := e1]> (rb_map R)) (rb_faces R ++ [(r_face r, re_id e)]) (inc64 (rb_n R)) (rb_next R))
      else Some (set_rb_map (<[n := set_re_routes (replace_first (fun x => same_route x r) r (re_routes e)) e]> (rb_map R)) R)
  | None =>
      let e := fst (insert_route r (RibEntry (rb_next R) [] 0 [] None [])) in
      let m1 := <[n := e]> (rb_map R) in
      let parent := find_parent m1 n in
      match (match parent with Some p => add_child p n m1 | None => Some m1 end) with
      | None => None
      | Some m2 =>
          match each_of (adopt n parent) (find_descendants m2 n) m2 with
          | None => None
          | Some m3 => Some (Rib m3 (rb_faces R ++ [(r_face r, rb_next R)]) (inc64 (rb_n R)) (rb_next R + 1))
          end
      end
  end.
(** rib.cpp:259-272, one pass of the loop: a child of the erased entry [n] moves to its parent *)
Definition hand_over (n : name) (parent : option name) (c : name) (m : gmap name rib_entry) : option (gmap name rib_entry) :=
  match remove_child n c m with
  | Some m' => match parent with Some p => add_child p c m' | None => Some m' end
  | None => None
  end.
(** rib.cpp:243-280 eraseEntry *)
Definition erase_entry (n : name) (m : gmap name rib_entry) : option (gmap name rib_entry) :=
  match m !! n with
  | None => Some m
  | Some e =>
      let parent := re_parent e in
      match (match parent with Some p => remove_child p n m | None => Some m end) with
      | None => None
      | Some m1 =>
          match each_of (hand_over n parent) (re_children e) m1 with
          | None => None
          | Some m2 => Some (delete n m2)
          end
      end
  end.
(** rib.cpp:151-186 erase *)
Definition rib_erase (n : name) (r : route) (R : rib) : option rib :=
  match rb_map R !! n with
  | None => Some R
  | Some e =>
      match find_route r (re_routes e) with
      | None => Some R
      | Some _ =>
          let e1 := erase_route r e in
          let m1 := <[n := e1]> (rb_map R) in
          let faces := if has_face (r_face r) e1 then rb_faces R
                       else remove_first (fun x => (fst x =? r_face r)%N && (snd x =? re_id e)%N) (rb_faces R) in
          match (match re_routes e1 with [] => erase_entry n m1 | _ => Some m1 end) with
          | Some m2 => Some (Rib m2 faces (dec64 (rb_n R)) (rb_next R))
          | None => None
          end
      end
  end.
(** rib.cpp:338-369 beginRemoveFace, enqueueRemoveFace: the routes that are to be removed.  An entry that is no
    longer in the RIB has no routes *)
Definition routes_of_id (id : N) (m : gmap name rib_entry) : list (name * route) :=
  concat (map (fun x => if (re_id (snd x) =? id)%N then map (pair (fst x)) (re_routes (snd x)) else []) (map_to_list m)).
Definition remove_face_updates (f : N) (R : rib) : list (name * route) :=
  concat (map (fun x => if (fst x =? f)%N then List.filter (fun y => (r_face (snd y) =? f)%N) (routes_of_id (snd x) (rb_map R)) else []) (rb_faces R)).

(** ** Sets of routes, ordered by face (rib.cpp:34-38 sortRoutes) *)
Fixpoint rs_insert (r : route) (l : list route) : list route :=
  match l with
  | [] => [r]
  | x :: l' => if (r_face r <? r_face x)%N then r :: l else if (r_face x <? r_face r)%N then x :: rs_insert r l' else l
  end.
Definition rs_find (r : route) (l : list route) : option route := List.find (fun x => r_face x =? r_face r)%N l.
Definition rs_remove (r : route) (l : list route) : list route := List.filter (fun x => negb (r_face x =? r_face r)%N) l.
(** rib.cpp:282-326 getAncestorRoutes, from parent [p] upwards; None: out of fuel or a bad pointer *)
Fixpoint ancestors_from (fuel : nat) (m : gmap name rib_entry) (p : option name) (acc : list route) : option (list route) :=
  match p with
  | None => Some acc
  | Some p =>
      match fuel, m !! p with
      | S fuel', Some e =>
          let acc' := fold_left (fun acc r => if child_inherit r then rs_insert r acc else acc) (re_routes e) acc in
          if has_capture e then Some acc' else ancestors_from fuel' m (re_parent e) acc'
      | _, _ => None
      end
  end.
Definition ancestor_routes (m : gmap name rib_entry) (p : option name) : option (list route) := ancestors_from (S (size m)) m p [].

(** * fib-updater.cpp *)
(** fib-update.hpp: ADD_NEXTHOP or REMOVE_NEXTHOP (cost 0) *)
Record fib_update := FibUpdate { fu_add : bool; fu_name : name; fu_face : N; fu_cost : N }.
Definition add_update (n : name) (f c : N) : fib_update := FibUpdate true n f c.
Definition remove_update (n : name) (f : N) : fib_update := FibUpdate false n f 0.
(** what is computed: m_batchFaceId, m_updatesForBatchFaceId, m_updatesForNonBatchFaceId,
    m_inheritedRoutes (whether it is added, where, the route) *)
Record upd := Upd { u_face : N; u_batch : list fib_update; u_other : list fib_update; u_inh : list (bool * name * route) }.
(** fib-updater.cpp:302-324 addFibUpdate *)
Definition put_update (u : fib_update) (l : list fib_update) : list fib_update :=
  let same x := name_eqb (fu_name u) (fu_name x) && (fu_face u =? fu_face x)%N in
  match List.find same l with Some _ => replace_first same u l | None => l ++ [u] end.
Definition add_fib_update (u : fib_update) (s : upd) : upd :=
  if (fu_face u =? u_face s)%N then Upd (u_face s) (put_update u (u_batch s)) (u_other s) (u_inh s)
  else Upd (u_face s) (u_batch s) (put_update u (u_other s)) (u_inh s).
(** fib-updater.cpp:674-685 *)
Definition inherit (add : bool) (n : name) (r : route) (s : upd) : upd := Upd (u_face s) (u_batch s) (u_other s) (u_inh s ++ [(add, n, r)]).
(** fib-updater.cpp:326-340 *)
Definition add_inherited_routes (n : name) (e : rib_entry) (l : list route) (s : upd) : upd :=
  fold_left (fun s r => if has_face (r_face r) e then s else add_fib_update (add_update n (r_face r) (r_cost r)) (inherit true n r s)) l s.
(** fib-updater.cpp:342-354 *)
Definition add_inherited_but (n : name) (l : list route) (ignore : route) (s : upd) : upd :=
  fold_left (fun s r => if (r_face r =? r_face ignore)%N then s else add_fib_update (add_update n (r_face r) (r_cost r)) (inherit true n r s)) l s.
(** fib-updater.cpp:356-367 *)
Definition remove_inherited_routes (n : name) (e : rib_entry) (l : list route) (s : upd) : upd :=
  fold_left (fun s r => if has_inherited r e then add_fib_update (remove_update n (r_face r)) (inherit false n r s) else s) l s.
(** fib-updater.cpp:618-672 modifyChildrensInheritedRoutes, traverseSubTree *)
Fixpoint traverse (fuel : nat) (m : gmap name rib_entry) (add remove : list route) (n : name) (s : upd) : option upd :=
  match fuel with
  | O => None
  | S fuel' =>
      match m !! n with
      | None => None
      | Some e =>
          if has_capture e then Some s
          else
            let keep l := List.filter (fun r => negb (child_inherit_on (r_face r) e)) l in
            let s1 := fold_left (fun s r => if has_inherited r e then add_fib_update (remove_update n (r_face r)) (inherit false n r s) else s) (keep remove) s in
            let s2 := fold_left (fun s r => if has_face (r_face r) e then s else add_fib_update (add_update n (r_face r) (r_cost r)) (inherit true n r s)) (keep add) s1 in
            each_of (traverse fuel' m (keep add) (keep remove)) (re_children e) s2
      end
  end.
Definition modify_children (m : gmap name rib_entry) (children : list name) (add remove : list route) (s : upd) : option upd :=
  each_of (traverse (S (size m)) m add remove) children s.

Definition obind {A B} (o : option A) (f : A -> option B) : option B := match o with Some x => f x | None => None end.
Notation "'do' x := a 'in' b" := (obind a (fun x => b)) (at level 200, x pattern).
(** fib-updater.cpp:369-416 createFibUpdatesForNewRibEntry; [parent] is what findParent finds *)
Definition for_new_entry (m : gmap name rib_entry) (n : name) (r : route) (children : list name) (s : upd) : option upd :=
  let s := add_fib_update (add_update n (r_face r) (r_cost r)) s in
  do anc := ancestor_routes m (find_parent m n) in
  match child_inherit r, rib_capture r with
  | false, false => Some (add_inherited_but n anc r s)
  | true, true => modify_children m children [r] anc s
  | true, false => modify_children m children (rs_insert r (rs_remove r anc)) [] (add_inherited_but n anc r s)
  | false, true => modify_children m children [] anc s
  end.
(** fib-updater.cpp:418-458 createFibUpdatesForNewRoute *)
Definition for_new_route (m : gmap name rib_entry) (n : name) (e : rib_entry) (r : route) (capture_on : bool) (s : upd) : option upd :=
  let add := if child_inherit r && match lowest_inherit_on (r_face r) e with None => true | Some p => (r_cost r <=? r_cost p)%N end then [r] else [] in
  do anc := (if capture_on then ancestor_routes m (re_parent e) else Some []) in
  let s1 := if capture_on then remove_inherited_routes n e anc s else s in
  do s2 := modify_children m (re_children e) add anc s1 in
  Some (if match lowest_on (r_face r) e with None => true | Some o => (r_cost r <=? r_cost o)%N end
        then add_fib_update (add_update n (r_face r) (r_cost r)) s2 else s2).
(** fib-updater.cpp:460-548 createFibUpdatesForUpdatedRoute; [e] has the new attributes.  None:
    a null pointer is dereferenced *)
Definition for_updated_route (m : gmap name rib_entry) (n : name) (e : rib_entry) (r old : route) (s : upd) : option upd :=
  let cost_changed := negb (r_cost r =? r_cost old)%N in
  let prev := lowest_inherit_on (r_face r) e in
  let no_better := match prev with None => true | Some p => (r_cost r <=? r_cost p)%N end in
  if (r_flags r =? r_flags old)%N && negb cost_changed then Some s
  else
    do s1 := (if cost_changed then
                do low := lowest_on (r_face r) e in
                if (r_cost r <=? r_cost low)%N then Some (add_fib_update (add_update n (r_face r) (r_cost r)) s)
                else if (r_cost old <? r_cost low)%N then
                  do p := prev in Some (add_fib_update (add_update n (r_face p) (r_cost p)) s)
                else Some s
              else Some s) in
    if cost_changed && no_better && (r_flags r =? r_flags old)%N && child_inherit r
    then modify_children m (re_children e) [r] [] s1
    else
      do s2 := (if negb (child_inherit old) && child_inherit r then
                  if no_better then modify_children m (re_children e) [r] [] s1 else Some s1
                else if child_inherit old && negb (child_inherit r) then
                  do add := match prev with
                            | Some p => Some [p]
                            | None => do anc := ancestor_routes m (re_parent e) in
                                      Some (match rs_find r anc with Some x => [x] | None => [] end)
                            end in
                  modify_children m (re_children e) add [r] s1
                else Some s1) in
      if negb (rib_capture old) && rib_capture r then
        do anc := ancestor_routes m (re_parent e) in
        modify_children m (re_children e) [] anc (remove_inherited_routes n e anc s2)
      else if rib_capture old && negb (rib_capture r) then
        do anc := ancestor_routes m (re_parent e) in
        modify_children m (re_children e) anc [] (add_inherited_routes n e anc s2)
      else Some s2.
(** fib-updater.cpp:550-608 createFibUpdatesForErasedRoute; [e] is without the route *)
Definition for_erased_route (m : gmap name rib_entry) (n : name) (e : rib_entry) (r : route) (capture_off : bool) (s : upd) : option upd :=
  let s := add_fib_update (remove_update n (r_face r)) s in
  let empty := match re_routes e with [] => true | _ => false end in
  do anc := ancestor_routes m (re_parent e) in
  do s1 := match child_inherit r, rib_capture r with
           | true, true =>
               let add := if capture_off && negb empty then anc else [] in
               modify_children m (re_children e) add [r] (add_inherited_routes n e add s)
           | true, false => modify_children m (re_children e) (if has_capture e then [] else anc) [r] s
           | false, true =>
               let add := if capture_off && negb empty then anc else [] in
               modify_children m (re_children e) add [] (add_inherited_routes n e add s)
           | false, false => Some s
           end in
  Some (if negb (has_capture e) && negb empty then
          match rs_find r anc with
          | Some x => add_fib_update (add_update n (r_face x) (r_cost x)) (inherit true n x s1)
          | None => s1
          end
        else s1).
(** fib-updater.cpp:610-616 createFibUpdatesForErasedRibEntry *)
Definition for_erased_entry (n : name) (e : rib_entry) (s : upd) : upd :=
  fold_left (fun s r => add_fib_update (remove_update n (r_face r)) s) (re_inherited e) s.

Inductive rib_action := Register | Unregister | RemoveFace.
(** rib-update-batch.hpp:39-56; a batch has one update *)
Record rib_update := RibUpdate { ru_action : rib_action; ru_name : name; ru_route : route }.
(** fib-updater.cpp:91-140 computeUpdatesForRegistration *)
Definition compute_register (m : gmap name rib_entry) (n : name) (r : route) (s : upd) : option upd :=
  match m !! n with
  | Some e =>
      match find_route r (re_routes e) with
      | None => for_new_route m n e r (negb (has_capture e) && rib_capture r) s
      | Some old =>
          let r1 := Route (r_face old) (r_origin old) (r_cost r) (r_flags r) (r_expires r) in
          for_updated_route m n (set_re_routes (replace_first (fun x => same_route x r) r1 (re_routes e)) e) r old s
      end
  | None =>
      let parent := find_parent m n in
      let children := List.filter (fun c => match m !! c with Some ce => opt_name_eqb (re_parent ce) parent | None => false end) (find_descendants_new m n) in
      for_new_entry m n r children s
  end.
(** fib-updater.cpp:142-175 computeUpdatesForUnregistration *)
Definition compute_unregister (m : gmap name rib_entry) (n : name) (r : route) (s : upd) : option upd :=
  match m !! n with
  | None => Some s
  | Some e =>
      match find_route r (re_routes e) with
      | None => Some s
      | Some old =>
          let temp := erase_route r e in
          do s1 := for_erased_route m n temp old (has_capture e && negb (has_capture temp)) s in
          do s2 := match second_on (r_face r) e with
                   | Some next => for_new_route m n temp next false s1
                   | None => Some s1
                   end in
          Some (if (length (re_routes e) =? 1)%nat then for_erased_entry n e s2 else s2)
      end
  end.
(** fib-updater.cpp:45-89 computeAndSendFibUpdates, computeUpdates *)
Definition compute (m : gmap name rib_entry) (u : rib_update) : option upd :=
  let s := Upd (r_face (ru_route u)) [] [] [] in
  match ru_action u with
  | Register => compute_register m (ru_name u) (ru_route u) s
  | Unregister => compute_unregister m (ru_name u) (ru_route u) s
  | RemoveFace => do s' := compute_unregister m (ru_name u) (ru_route u) s in Some (Upd (u_face s') [] (u_other s') (u_inh s'))
  end.

(** rib.cpp:451-470 modifyInheritedRoutes; None: the entry is not there *)
Definition modify_inherited (l : list (bool * name * route)) (m : gmap name rib_entry) : option (gmap name rib_entry) :=
  each_of (fun '(add, n, r) m => match m !! n with
                                 | Some e => Some (<[n := (if add : bool then add_inherited r e else remove_inherited r e)]> m)
                                 | None => None
                                 end) l m.
(** rib.cpp:407-435 onFibUpdateSuccess: the change of the RIB *)
Definition rib_apply (u : rib_update) (inh : list (bool * name * route)) (R : rib) : option rib :=
  do R1 := match ru_action u with
           | Register => rib_insert (ru_name u) (ru_route u) R
           | _ => rib_erase (ru_name u) (ru_route u) R
           end in
  do m := modify_inherited inh (rb_map R1) in Some (set_rb_map m R1).
