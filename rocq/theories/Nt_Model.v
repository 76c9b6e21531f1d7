(** Name tree: daemon/table/name-tree.{hpp,cpp}, name-tree-entry.{hpp,cpp},
    name-tree-hashtable.{hpp,cpp}, name-tree-iterator.{hpp,cpp}.

    A pointer to a name tree entry is the entry's name; following a pointer to an
    entry that is not in the hash table is the outcome [None], as is a failed
    BOOST_ASSERT.  The doubly linked chain of a bucket is a list.  What the four
    tables attach to an entry is a parameter [E] with its empty value and the test
    [hasTableEntries]. *)
From Verif Require Import Lib Name_Model.

(** name-tree.hpp:50-54 getMaxDepth *)
Definition MAX_DEPTH : nat := 32.

(** binary32 rounding (24-bit significand, to nearest even) of n / 2^e *)
Definition round_bits (bits : N) (p : N) : N :=
  let s := (N.log2 p - (bits - 1))%N in
  let q := N.shiftr p s in
  let r := (p - N.shiftl q s)%N in
  let half := N.shiftl 1 (s - 1) in
  if (s =? 0)%N then p
  else if (r <? half)%N then N.shiftl q s
  else if (half <? r)%N then N.shiftl (q + 1) s
  else if N.even q then N.shiftl q s else N.shiftl (q + 1) s.
(** static_cast<size_t>(f * n) for the float f = m * 2^(-e): n is converted to
    float, the product is rounded to float, then truncated *)
Definition float_mul_trunc (m e n : N) : N :=
  N.shiftr (round_bits 24 (m * round_bits 24 n)) e.

(** name-tree-hashtable.hpp:109-141 HashtableOptions.  The four load-factor
    computations are functions of the bucket count. *)
Record ht_options := HtOptions {
  o_initial : N;
  o_min : N;
  o_expand_threshold : N -> N;   (* expandLoadFactor * nBuckets *)
  o_expand : N -> N;             (* expandFactor * nBuckets *)
  o_shrink_threshold : N -> N;   (* shrinkLoadFactor * nBuckets *)
  o_shrink : N -> N;             (* shrinkFactor * nBuckets *)
}.
(** name-tree-hashtable.cpp:112-116 HashtableOptions(size): factors 0.5f, 2.0f,
    0.1f (13421773 * 2^-27) and 0.5f *)
Definition default_options (size : N) : ht_options :=
  HtOptions size size (float_mul_trunc 1 1) (float_mul_trunc 2 0)
    (float_mul_trunc 13421773 27) (float_mul_trunc 1 1).

Section nt.
  Context {E : Type} (e_empty : E) (e_has_tables : E -> bool).
  (** HashFunc::compute of a component's wire encoding (CityHash) *)
  Variable hash_comp : comp -> N.
  Variable opts : ht_options.

  (** name-tree-hashtable.cpp:59-70 computeHash *)
  Definition compute_hash (n : name) (len : nat) : N :=
    foldl (fun h c => N.lxor h (hash_comp c)) 0%N (take len n).

  (** name-tree-hashtable.cpp:72-90 computeHashes: hashes of the prefixes of
      length 0 .. len *)
  Fixpoint hashes_from (h : N) (cs : list comp) : list N :=
    h :: match cs with
         | [] => []
         | c :: cs' => hashes_from (N.lxor h (hash_comp c)) cs'
         end.
  Definition compute_hashes (n : name) (len : nat) : list N := hashes_from 0 (take len n).

  (** name-tree-hashtable.hpp class Node and name-tree-entry.hpp class Entry *)
  Record node := Node {
    n_hash : N;
    n_name : name;
    n_parent : option name;     (* m_parent *)
    n_children : list name;     (* m_children *)
    n_tables : E;               (* m_fibEntry, m_pitEntries, ... *)
  }.

  (** name-tree-hashtable.hpp:225-230 *)
  Record hashtable := Ht {
    buckets : list (list node);
    ht_size : N;
    expand_threshold : N;
    shrink_threshold : N;
  }.
  Definition n_buckets (t : hashtable) : N := N.of_nat (length (buckets t)).

  (** name-tree-hashtable.cpp:250-256 computeThresholds *)
  Definition compute_thresholds (bs : list (list node)) (size : N) : hashtable :=
    let nb := N.of_nat (length bs) in
    Ht bs size (o_expand_threshold opts nb) (o_shrink_threshold opts nb).

  (** name-tree-hashtable.cpp:118-134 Hashtable(options) *)
  Definition ht_new : hashtable :=
    compute_thresholds (replicate (N.to_nat (o_initial opts)) []) 0.

  (** name-tree-hashtable.hpp:185-189 computeBucketIndex *)
  Definition bucket_index (bs : list (list node)) (h : N) : nat :=
    N.to_nat (h mod N.of_nat (length bs)).

  (** name-tree-hashtable.cpp:146-158 attach: at the head of the chain *)
  Definition attach (bs : list (list node)) (b : nat) (x : node) : list (list node) :=
    alter (fun chain => x :: chain) b bs.
  (** name-tree-hashtable.cpp:160-178 detach *)
  Definition detach (bs : list (list node)) (b : nat) (n : name) : list (list node) :=
    alter (List.filter (fun y => negb (name_eqb n (n_name y)))) b bs.

  (** name-tree-hashtable.cpp:258-278 resize *)
  Definition ht_resize (new_n : N) (t : hashtable) : hashtable :=
    if (n_buckets t =? new_n)%N then t
    else
      compute_thresholds
        (foldl (fun bs x => attach bs (bucket_index bs (n_hash x)) x)
           (replicate (N.to_nat new_n) []) (concat (buckets t)))
        (ht_size t).

  (** the chain search of name-tree-hashtable.cpp:185-190 *)
  Definition chain_find (n : name) (len : nat) (h : N) (chain : list node) : option node :=
    List.find (fun x => (n_hash x =? h)%N && name_eqb (take len n) (n_name x)) chain.

  (** name-tree-hashtable.cpp:180-207 findOrInsert *)
  Definition find_or_insert (n : name) (len : nat) (h : N) (allow : bool) (t : hashtable)
      : hashtable * option (node * bool) :=
    let b := bucket_index (buckets t) h in
    match chain_find n len h (default [] (buckets t !! b)) with
    | Some x => (t, Some (x, false))
    | None =>
        if allow then
          let x := Node h (take len n) None [] e_empty in
          let t1 := Ht (attach (buckets t) b x) (ht_size t + 1)
                      (expand_threshold t) (shrink_threshold t) in
          let t2 := if (expand_threshold t1 <? ht_size t1)%N
                    then ht_resize (o_expand opts (n_buckets t1)) t1 else t1 in
          (t2, Some (x, true))
        else (t, None)
    end.

  (** name-tree-hashtable.cpp:209-214 find(name, prefixLen) *)
  Definition ht_find (n : name) (len : nat) (t : hashtable) : option node :=
    option_map fst (find_or_insert n len (compute_hash n len) false t).2.

  (** name-tree-hashtable.cpp:216-221 find with precomputed hashes; the outer
      option is the assertion *)
  Definition ht_find_with (n : name) (len : nat) (hashes : list N) (t : hashtable)
      : option (option node) :=
    match hashes !! len with
    | Some h => if (h =? compute_hash n len)%N
                then Some (option_map fst (find_or_insert n len h false t).2)
                else None
    | None => None
    end.

  (** name-tree-hashtable.cpp:223-228 insert *)
  Definition ht_insert (n : name) (len : nat) (hashes : list N) (t : hashtable)
      : option (hashtable * (node * bool)) :=
    match hashes !! len with
    | Some h => if (h =? compute_hash n len)%N then
                  match find_or_insert n len h true t with
                  | (t', Some r) => Some (t', r)
                  | (_, None) => None
                  end
                else None
    | None => None
    end.

  (** following / writing through a pointer to an entry *)
  Definition deref (n : name) (t : hashtable) : option node := ht_find n (length n) t.
  Definition write (n : name) (f : node -> node) (t : hashtable) : hashtable :=
    Ht (map (map (fun x => if name_eqb n (n_name x) then f x else x)) (buckets t))
       (ht_size t) (expand_threshold t) (shrink_threshold t).

  (** name-tree-hashtable.cpp:230-248 erase(node) *)
  Definition ht_erase (n : name) (t : hashtable) : option hashtable :=
    match deref n t with
    | None => None
    | Some x =>
        match n_parent x with
        | Some _ => None                               (* line 234 assertion *)
        | None =>
            let t1 := Ht (detach (buckets t) (bucket_index (buckets t) (n_hash x)) n)
                        (ht_size t - 1) (expand_threshold t) (shrink_threshold t) in
            Some (if (ht_size t1 <? shrink_threshold t1)%N
                  then ht_resize (N.max (o_min opts) (o_shrink opts (n_buckets t1))) t1
                  else t1)
        end
    end.

  Definition set_n_parent (p : option name) (x : node) : node :=
    Node (n_hash x) (n_name x) p (n_children x) (n_tables x).
  Definition set_n_children (c : list name) (x : node) : node :=
    Node (n_hash x) (n_name x) (n_parent x) c (n_tables x).
  Definition set_n_tables (e : E) (x : node) : node :=
    Node (n_hash x) (n_name x) (n_parent x) (n_children x) e.

  (** name-tree-entry.cpp:39-48 Entry::setParent *)
  Definition set_parent (n p : name) (t : hashtable) : option hashtable :=
    match deref n t, deref p t with
    | Some x, Some px =>
        match n_parent x with
        | Some _ => None                                          (* line 41 *)
        | None =>
            if bool_decide (n_name x = []) then None              (* line 42 *)
            else if negb (name_eqb (n_name px) (take (length (n_name x) - 1) (n_name x)))
            then None                                             (* line 43 *)
            else Some (write p (fun y => set_n_children (n_children y ++ [n]) y)
                         (write n (set_n_parent (Some p)) t))
        end
    | _, _ => None
    end.

  (** std::find then vector::erase: the first occurrence *)
  Fixpoint erase_first (n : name) (l : list name) : list name :=
    match l with
    | [] => []
    | c :: l' => if name_eqb n c then l' else c :: erase_first n l'
    end.

  (** name-tree-entry.cpp:50-60 Entry::unsetParent *)
  Definition unset_parent (n : name) (t : hashtable) : option hashtable :=
    match deref n t with
    | Some x =>
        match n_parent x with
        | None => None                                            (* line 53 *)
        | Some p =>
            match deref p t with
            | None => None
            | Some px =>
                if existsb (name_eqb n) (n_children px) then
                  Some (write n (set_n_parent None)
                          (write p (fun y => set_n_children (erase_first n (n_children y)) y) t))
                else None                                         (* line 56 *)
            end
        end
    | None => None
    end.

  (** name-tree-entry.hpp isEmpty = !hasChildren() && !hasTableEntries() *)
  Definition is_empty (x : node) : bool :=
    match n_children x with [] => negb (e_has_tables (n_tables x)) | _ => false end.

  (** name-tree.cpp:42-63 NameTree::lookup(name, prefixLen) *)
  Fixpoint lookup_loop (n : name) (hashes : list N) (is : list nat) (parent : option name)
      (t : hashtable) : option (hashtable * option name) :=
    match is with
    | [] => Some (t, parent)
    | i :: is' =>
        match ht_insert n i hashes t with
        | None => None
        | Some (t1, (x, is_new)) =>
            match (match parent with
                   | Some p => if is_new then set_parent (n_name x) p t1 else Some t1
                   | None => Some t1
                   end) with
            | None => None
            | Some t2 => lookup_loop n hashes is' (Some (n_name x)) t2
            end
        end
    end.
  Definition nt_lookup (n : name) (len : nat) (t : hashtable) : option (hashtable * name) :=
    if (length n <? len)%nat then None
    else if (MAX_DEPTH <? len)%nat then None
    else match lookup_loop n (compute_hashes n len) (seq 0 (S len)) None t with
         | Some (t', Some p) => Some (t', p)
         | _ => None
         end.

  (** name-tree.cpp:121-146 NameTree::eraseIfEmpty.  A tree of names is at most
      [length n] deep above [n]; [fuel] counts the iterations. *)
  Fixpoint erase_loop (fuel : nat) (n : name) (ancestors : bool) (t : hashtable)
      : option (hashtable * nat) :=
    match fuel with
    | O => None
    | S f =>
        match deref n t with
        | None => None
        | Some x =>
            if negb (is_empty x) then Some (t, 0)
            else
              match (match n_parent x with Some _ => unset_parent n t | None => Some t end) with
              | None => None
              | Some t1 =>
                  match ht_erase n t1 with
                  | None => None
                  | Some t2 =>
                      if negb ancestors then Some (t2, 1)
                      else match n_parent x with
                           | None => Some (t2, 1)
                           | Some p => match erase_loop f p ancestors t2 with
                                       | Some (t3, k) => Some (t3, S k)
                                       | None => None
                                       end
                           end
                  end
              end
        end
    end.
  Definition nt_erase_if_empty (n : name) (ancestors : bool) (t : hashtable)
      : option (hashtable * nat) :=
    erase_loop (S (length n)) n ancestors t.

  (** name-tree.cpp:148-158 findExactMatch; [len] = None is the default argument
      (the largest size_t) *)
  Definition nt_find_exact (n : name) (len : option nat) (t : hashtable) : option node :=
    let len := match len with Some l => Nat.min (length n) l | None => length n end in
    if (MAX_DEPTH <? len)%nat then None else ht_find n len t.

  (** name-tree.cpp:160-176 findLongestPrefixMatch(name, selector) *)
  Fixpoint lpm_loop (n : name) (hashes : list N) (sel : node -> bool) (i : nat) (t : hashtable)
      : option (option node) :=
    match ht_find_with n i hashes t with
    | None => None
    | Some r =>
        match (match r with Some x => if sel x then Some x else None | None => None end) with
        | Some x => Some (Some x)
        | None => match i with
                  | O => Some None
                  | S j => lpm_loop n hashes sel j t
                  end
        end
    end.
  Definition nt_lpm (n : name) (sel : node -> bool) (t : hashtable) : option (option node) :=
    let depth := Nat.min (length n) MAX_DEPTH in
    lpm_loop n (compute_hashes n depth) sel depth t.

  (** name-tree.cpp:178-190 findLongestPrefixMatch(entry, selector): walks up the
      parent pointers; [fuel] counts the entries visited *)
  Fixpoint lpm_up (fuel : nat) (n : name) (sel : node -> bool) (t : hashtable)
      : option (option node) :=
    match fuel with
    | O => None
    | S f =>
        match deref n t with
        | None => None
        | Some x =>
            if sel x then Some (Some x)
            else match n_parent x with
                 | None => Some None
                 | Some p => lpm_up f p sel t
                 end
        end
    end.
  Definition nt_lpm_entry (n : name) (sel : node -> bool) (t : hashtable) : option (option node) :=
    lpm_up (S (length n)) n sel t.

  (** name-tree.cpp:192-209 findLongestPrefixMatch(pitEntry, selector): the PIT
      entry named [n] hangs on the name tree entry named [at_] *)
  Fixpoint go_deeper (n : name) (is : list nat) (cur : name) (t : hashtable) : name :=
    match is with
    | [] => cur
    | i :: is' => match nt_find_exact n (Some i) t with
                  | None => cur
                  | Some x => go_deeper n is' (n_name x) t
                  end
    end.
  Definition nt_lpm_pit (n at_ : name) (sel : node -> bool) (t : hashtable) : option (option node) :=
    let depth := Nat.min (length n) MAX_DEPTH in
    let start :=
      if (length at_ <? length n)%nat
      then go_deeper n (seq (S (length at_)) (depth - length at_)) at_ t
      else at_ in
    nt_lpm_entry start sel t.

  (** ** Iterators, name-tree-iterator.cpp *)

  (** name-tree-iterator.cpp:86-128 FullEnumerationImpl::advance.  An iterator
      position is the bucket, the chain after the current node and the current node. *)
  Fixpoint first_matching (sel : node -> bool) (chain : list node) : option (node * list node) :=
    match chain with
    | [] => None
    | x :: rest => if sel x then Some (x, rest) else first_matching sel rest
    end.
  Fixpoint next_bucket (sel : node -> bool) (bs : list (list node))
      : option (node * list node * list (list node)) :=
    match bs with
    | [] => None
    | chain :: bs' => match first_matching sel chain with
                      | Some (x, rest) => Some (x, rest, bs')
                      | None => next_bucket sel bs'
                      end
    end.
  (** lines 89-105: the first node of the first non-empty bucket, whether selected or not *)
  Fixpoint first_node (bs : list (list node)) : option (node * list node * list (list node)) :=
    match bs with
    | [] => None
    | [] :: bs' => first_node bs'
    | (x :: rest) :: bs' => Some (x, rest, bs')
    end.
  (** lines 107-127: from a current node, the rest of its chain, then later buckets *)
  Definition full_next (sel : node -> bool) (rest : list node) (bs : list (list node))
      : option (node * list node * list (list node)) :=
    match first_matching sel rest with
    | Some (x, rest') => Some (x, rest', bs)
    | None => next_bucket sel bs
    end.
  (** the whole range: begin, then operator++ until the end iterator *)
  Fixpoint full_from (fuel : nat) (sel : node -> bool) (pos : option (node * list node * list (list node)))
      : option (list node) :=
    match pos with
    | None => Some []
    | Some (x, rest, bs) =>
        match fuel with
        | O => None
        | S f => match full_from f sel (full_next sel rest bs) with
                 | Some l => Some (x :: l)
                 | None => None
                 end
        end
    end.
  Definition nt_full_enumerate (fuel : nat) (sel : node -> bool) (t : hashtable) : option (list node) :=
    let start :=
      match first_node (buckets t) with
      | None => None
      | Some (x, rest, bs) => if sel x then Some (x, rest, bs) else full_next sel rest bs
      end in
    full_from fuel sel start.

  (** name-tree-iterator.cpp:206-230 PrefixMatchImpl::advance, name-tree.cpp:211-222
      findAllMatches *)
  Fixpoint up_matches (fuel : nat) (sel : node -> bool) (x : node) (t : hashtable)
      : option (list node) :=
    match fuel with
    | O => None
    | S f =>
        match n_parent x with
        | None => Some []
        | Some p =>
            match deref p t with
            | None => None
            | Some px => match up_matches f sel px t with
                         | None => None
                         | Some l => Some (if sel px then px :: l else l)
                         end
            end
        end
    end.
  Definition nt_find_all (n : name) (sel : node -> bool) (t : hashtable) : option (list node) :=
    match nt_lpm n sel t with
    | None => None
    | Some None => Some []
    | Some (Some x) =>
        match up_matches (S (length (n_name x))) sel x t with
        | None => None
        | Some l => Some (if sel x then x :: l else l)
        end
    end.

  (** name-tree-iterator.cpp:136-198 PartialEnumerationImpl::advance.  [sel]
      returns (wantSelf, wantChildren).  One iteration of the while loop from the
      current entry: [inr x] visits x and stops, [inl (x, wantChildren)] goes on. *)
  Inductive pe_step := PVisit (x : name) (wc : bool) | PGo (x : name) (wc : bool) | PEnd | PBad.

  (** lines 181-193: the siblings after the current one *)
  Fixpoint pe_siblings (sel : node -> bool * bool) (sibs : list name) (parent : name) (t : hashtable)
      : pe_step :=
    match sibs with
    | [] => PGo parent false
    | s :: sibs' =>
        match deref s t with
        | None => PBad
        | Some x => let '(ws, wc) := sel x in
                    if ws then PVisit s wc
                    else if wc then PGo s wc
                    else pe_siblings sel sibs' parent t
        end
    end.
  Fixpoint after_first (n : name) (l : list name) : option (list name) :=
    match l with
    | [] => None                                      (* line 180 assertion *)
    | c :: l' => if name_eqb n c then Some l' else after_first n l'
    end.
  Definition pe_loop_body (sel : node -> bool * bool) (ref n : name) (wc : bool) (t : hashtable)
      : pe_step :=
    match deref n t with
    | None => PBad
    | Some x =>
        match n_children x with
        | c :: _ =>
            if wc then
              match deref c t with
              | None => PBad
              | Some cx => let '(ws, wc') := sel cx in
                           if ws then PVisit c wc' else PGo c wc'
              end
            else if name_eqb n ref then PEnd
            else match n_parent x with
                 | None => PBad
                 | Some p =>
                     match deref p t with
                     | None => PBad
                     | Some px => match after_first n (n_children px) with
                                  | None => PBad
                                  | Some sibs => pe_siblings sel sibs p t
                                  end
                     end
                 end
        | [] =>
            if name_eqb n ref then PEnd
            else match n_parent x with
                 | None => PBad
                 | Some p =>
                     match deref p t with
                     | None => PBad
                     | Some px => match after_first n (n_children px) with
                                  | None => PBad
                                  | Some sibs => pe_siblings sel sibs p t
                                  end
                     end
                 end
        end
    end.
  (** run the iterator to the end, collecting the visited entries *)
  Fixpoint pe_run (fuel : nat) (sel : node -> bool * bool) (ref n : name) (wc : bool) (t : hashtable)
      : option (list name) :=
    match fuel with
    | O => None
    | S f =>
        match pe_loop_body sel ref n wc t with
        | PBad => None
        | PEnd => Some []
        | PGo m wc' => pe_run f sel ref m wc' t
        | PVisit m wc' => match pe_run f sel ref m wc' t with
                          | Some l => Some (m :: l)
                          | None => None
                          end
        end
    end.
  Definition nt_partial_enumerate (fuel : nat) (p : name) (sel : node -> bool * bool) (t : hashtable)
      : option (list name) :=
    match nt_find_exact p None t with
    | None => Some []
    | Some x => let '(ws, wc) := sel x in
                match pe_run fuel sel (n_name x) (n_name x) wc t with
                | Some l => Some (if ws then n_name x :: l else l)
                | None => None
                end
    end.

  (** setFibEntry etc. change what is attached to an entry *)
  Definition nt_set_tables (n : name) (e : E) (t : hashtable) : hashtable :=
    write n (set_n_tables e) t.
End nt.
