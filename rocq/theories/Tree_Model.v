(** The name tree as the tables see it: a prefix-closed finite map from names to
    table entries.  Nt_* prove that the hash table, chains, parent and child links
    implement exactly these functions (Tree_Refine.v). *)
From stdpp Require Import gmap.
From Verif Require Import Lib Name_Model Nt_Model.

(** all prefixes of a name, shortest first *)
Definition prefixes (n : name) : list name := map (fun i => take i n) (seq 0 (S (length n))).

Section tree.
  Context {E : Type} (e0 : E) (has : E -> bool).
  Notation tree := (gmap name E).

  (** name-tree.cpp:42-63 NameTree::lookup(name, name.size()); None is the depth assertion *)
  Definition t_lookup (n : name) (t : tree) : option tree :=
    if (MAX_DEPTH <? length n)%nat then None
    else Some (foldl (fun t p => match t !! p with Some _ => t | None => <[p := e0]> t end)
                 t (prefixes n)).

  (** name-tree-entry.hpp hasChildren *)
  Definition t_has_children (n : name) (t : tree) : bool :=
    existsb (fun k : name => (length k =? S (length n))%nat && name_eqb (take (length n) k) n)
      (map fst (map_to_list t)).
  (** name-tree-entry.hpp isEmpty *)
  Definition t_is_empty (n : name) (t : tree) : bool :=
    match t !! n with
    | Some e => negb (has e) && negb (t_has_children n t)
    | None => false
    end.

  (** name-tree.cpp:121-146 NameTree::eraseIfEmpty *)
  Fixpoint t_erase_loop (fuel : nat) (n : name) (ancestors : bool) (t : tree) : tree :=
    match fuel with
    | O => t
    | S f =>
        if t_is_empty n t then
          let t1 := delete n t in
          if ancestors then
            match n with
            | [] => t1
            | _ => t_erase_loop f (take (length n - 1) n) ancestors t1
            end
          else t1
        else t
    end.
  Definition t_erase_if_empty (n : name) (ancestors : bool) (t : tree) : tree :=
    t_erase_loop (S (length n)) n ancestors t.

  (** name-tree.cpp:160-209 findLongestPrefixMatch *)
  Fixpoint t_lpm_from (n : name) (sel : name -> E -> bool) (i : nat) (t : tree) : option (name * E) :=
    match (match t !! take i n with
           | Some e => if sel (take i n) e then Some (take i n, e) else None
           | None => None
           end) with
    | Some r => Some r
    | None => match i with O => None | S j => t_lpm_from n sel j t end
    end.
  Definition t_lpm (n : name) (sel : name -> E -> bool) (t : tree) : option (name * E) :=
    t_lpm_from n sel (Nat.min (length n) MAX_DEPTH) t.

  (** name-tree.cpp:211-222 findAllMatches: selected prefixes, longest first *)
  Definition t_all_matches (n : name) (sel : name -> E -> bool) (t : tree) : list (name * E) :=
    omap (fun i => match t !! take i n with
                   | Some e => if sel (take i n) e then Some (take i n, e) else None
                   | None => None
                   end)
      (rev (seq 0 (S (Nat.min (length n) MAX_DEPTH)))).

  (** name-tree.cpp:231-238 partialEnumerate, as the test whether entry [q] is visited *)
  Definition t_visited (p : name) (sel : name -> E -> bool * bool) (t : tree) (q : name) : bool :=
    match t !! q with
    | None => false
    | Some e =>
        name_eqb (take (length p) q) p && (length p <=? length q)%nat && (sel q e).1 &&
        forallb (fun i => match t !! take i q with
                          | Some e' => (sel (take i q) e').2
                          | None => true
                          end)
          (seq (length p) (length q - length p))
    end.
End tree.
