(** Content store: daemon/table/cs.{hpp,cpp}, cs-entry.cpp, cs-policy.cpp,
    cs-policy-lru.cpp, cs-policy-priority-fifo.cpp.

    The std::set of entries is a list kept sorted; an iterator into it is the
    entry's key (name and implicit digest), which is how the policies compare
    iterators (daemon/table/cs-entry.hpp, operator< on Table::const_iterator).
    A failed BOOST_ASSERT or a use of an empty queue is the outcome [None].
    Time is an explicit argument, in nanoseconds; each operation happens at one
    instant. *)
From Verif Require Import Lib Name_Model Packet_Model.

Definition key : Type := (name * list N)%type.
Definition data_key (d : data) : key := (d_name d, d_digest d).

(** cs-entry.hpp: class Entry *)
Record entry := Entry {
  e_data : data;
  e_unsol : bool;        (* m_isUnsolicited *)
  e_fresh_until : Z;     (* m_freshUntil *)
}.
Definition e_key (e : entry) : key := data_key (e_data e).

(** cs-entry.cpp:37-41 Entry::isFresh *)
Definition is_fresh (now : Z) (e : entry) : bool := (now <=? e_fresh_until e)%Z.

(** cs-entry.cpp:43-47 Entry::updateFreshUntil *)
Definition update_fresh_until (now : Z) (e : entry) : entry :=
  Entry (e_data e) (e_unsol e) (wrap64 (now + ns_of_ms (d_fresh (e_data e)))).

(** cs-entry.cpp:30-35 Entry::Entry *)
Definition mk_entry (now : Z) (d : data) (unsol : bool) : entry :=
  update_fresh_until now (Entry d unsol 0).

(** cs-entry.hpp clearUnsolicited *)
Definition clear_unsolicited (e : entry) : entry :=
  Entry (e_data e) false (e_fresh_until e).

(** cs-entry.cpp:49-61 Entry::canSatisfy *)
Definition can_satisfy (now : Z) (i : interest) (e : entry) : bool :=
  if negb (matches_data i (e_data e)) then false
  else if i_mbf i && negb (is_fresh now e) then false
  else true.

(** cs-entry.cpp:63-82 compareQueryWithData *)
Definition query_cmp (q : name) (k : key) : comparison :=
  let full := match last q with Some c => is_digest c | None => false end in
  let cmp := if full then name_cmp (take (length q - 1) q) k.1
             else name_cmp q k.1 in
  match cmp with
  | Eq => if full then
            match last q with
            | Some c => comp_cmp c (T_IMPLICIT_DIGEST, k.2)
            | None => Lt
            end
          else Lt
  | r => r
  end.

(** cs-entry.cpp:84-93 compareDataWithData *)
Definition key_cmp (k l : key) : comparison :=
  match name_cmp k.1 l.1 with
  | Eq => comp_cmp (T_IMPLICIT_DIGEST, k.2) (T_IMPLICIT_DIGEST, l.2)
  | r => r
  end.
Definition key_eqb (k l : key) : bool := is_eq (key_cmp k l).

(** cs-entry.cpp:95-99 operator<(Entry, Name) *)
Definition entry_lt_query (q : name) (e : entry) : bool := is_gt (query_cmp q (e_key e)).

(** std::set::lower_bound with a heterogeneous key: the index of the first
    entry not less than the query. *)
Fixpoint lower_bound (q : name) (t : list entry) : nat :=
  match t with
  | [] => 0
  | e :: t' => if entry_lt_query q e then S (lower_bound q t') else 0
  end.

(** std::set::emplace: keeps an equivalent element if there is one.
    Returns the table and whether the element is new. *)
Fixpoint tbl_emplace (e : entry) (t : list entry) : list entry * bool :=
  match t with
  | [] => ([e], true)
  | f :: t' =>
      match key_cmp (e_key e) (e_key f) with
      | Lt => (e :: f :: t', true)
      | Eq => (f :: t', false)
      | Gt => let '(t'', b) := tbl_emplace e t' in (f :: t'', b)
      end
  end.

(** m_table.erase(it) *)
Definition tbl_erase (k : key) (t : list entry) : list entry :=
  List.filter (fun e => negb (key_eqb k (e_key e))) t.

(** Dereferencing an iterator / mutating the entry behind it. *)
Definition tbl_get (k : key) (t : list entry) : option entry :=
  List.find (fun e => key_eqb k (e_key e)) t.
Definition tbl_update (k : key) (f : entry -> entry) (t : list entry) : list entry :=
  map (fun e => if key_eqb k (e_key e) then f e else e) t.

(** * LRU policy, cs-policy-lru.cpp *)

Definition key_mem (k : key) (q : list key) : bool := existsb (key_eqb k) q.
Definition key_remove (k : key) (q : list key) : list key :=
  List.filter (fun l => negb (key_eqb k l)) q.

(** cs-policy-lru.cpp:75-85 LruPolicy::insertToQueue *)
Definition lru_insert_to_queue (k : key) (is_new_entry : bool) (q : list key) : option (list key) :=
  let is_new := negb (key_mem k q) in
  let q' := if is_new then q ++ [k] else q in
  if Bool.eqb is_new is_new_entry then
    Some (if is_new_entry then q' else key_remove k q' ++ [k])
  else None.

(** cs-policy-lru.cpp:63-73 LruPolicy::evictEntries; the beforeEvict signal
    erases the entry from the table (cs.cpp:143). *)
Fixpoint lru_evict (limit : N) (q : list key) (t : list entry) : option (list key * list entry) :=
  if (N.of_nat (length t) <=? limit)%N then Some (q, t)
  else match q with
       | [] => None
       | k :: q' => lru_evict limit q' (tbl_erase k t)
       end.

(** * Priority-FIFO policy, cs-policy-priority-fifo.cpp *)

(** cs-policy-priority-fifo.hpp QueueType *)
Inductive qtype := Q_UNSOLICITED | Q_STALE | Q_FIFO.

(** [pf_info] is m_entryInfoMap (queue type and scheduled event), [pf_timers]
    the events pending in the scheduler: (event id, (key, deadline)). *)
Record pf := Pf {
  pf_unsol : list key;
  pf_stale : list key;
  pf_fifo : list key;
  pf_info : list (key * (qtype * option N));
  pf_timers : list (N * (key * Z));
  pf_next : N;
}.
Definition pf_empty : pf := Pf [] [] [] [] [] 0.

Definition pf_queue (t : qtype) (p : pf) : list key :=
  match t with Q_UNSOLICITED => pf_unsol p | Q_STALE => pf_stale p | Q_FIFO => pf_fifo p end.
Definition pf_set_queue (t : qtype) (q : list key) (p : pf) : pf :=
  match t with
  | Q_UNSOLICITED => Pf q (pf_stale p) (pf_fifo p) (pf_info p) (pf_timers p) (pf_next p)
  | Q_STALE => Pf (pf_unsol p) q (pf_fifo p) (pf_info p) (pf_timers p) (pf_next p)
  | Q_FIFO => Pf (pf_unsol p) (pf_stale p) q (pf_info p) (pf_timers p) (pf_next p)
  end.
Definition pf_set_info i (p : pf) : pf :=
  Pf (pf_unsol p) (pf_stale p) (pf_fifo p) i (pf_timers p) (pf_next p).
Definition pf_set_timers ts n (p : pf) : pf :=
  Pf (pf_unsol p) (pf_stale p) (pf_fifo p) (pf_info p) ts n.

Definition info_get (k : key) (i : list (key * (qtype * option N))) : option (qtype * option N) :=
  option_map snd (List.find (fun x => key_eqb k x.1) i).
Definition info_del (k : key) (i : list (key * (qtype * option N))) :=
  List.filter (fun x => negb (key_eqb k x.1)) i.

(** cs-policy-priority-fifo.cpp:104-125 attachQueue *)
Definition pf_attach (now : Z) (e : entry) (p : pf) : option pf :=
  let k := e_key e in
  match info_get k (pf_info p) with
  | Some _ => None                                   (* line 107 assertion *)
  | None =>
      let '(ty, ev, p1) :=
        if e_unsol e then (Q_UNSOLICITED, None, p)
        else if negb (is_fresh now e) then (Q_STALE, None, p)
        else (Q_FIFO, Some (pf_next p),
              pf_set_timers
                ((pf_next p, (k, wrap64 (now + ns_of_ms (d_fresh (e_data e))))) :: pf_timers p)
                (pf_next p + 1)%N p) in
      Some (pf_set_info ((k, (ty, ev)) :: pf_info p1)
              (pf_set_queue ty (pf_queue ty p1 ++ [k]) p1))
  end.

(** cs-policy-priority-fifo.cpp:127-140 detachQueue *)
Definition pf_detach (k : key) (p : pf) : option pf :=
  match info_get k (pf_info p) with
  | None => None                                     (* line 130 assertion *)
  | Some (ty, ev) =>
      let p1 := match ty, ev with
                | Q_FIFO, Some id =>
                    pf_set_timers (List.filter (fun t => negb (t.1 =? id)%N) (pf_timers p))
                      (pf_next p) p
                | _, _ => p
                end in
      Some (pf_set_info (info_del k (pf_info p1))
              (pf_set_queue ty (key_remove k (pf_queue ty p1)) p1))
  end.

(** cs-policy-priority-fifo.cpp:142-156 moveToStaleQueue *)
Definition pf_move_to_stale (k : key) (p : pf) : option pf :=
  match info_get k (pf_info p) with
  | Some (Q_FIFO, ev) =>
      let p1 := pf_set_queue Q_FIFO (key_remove k (pf_fifo p)) p in
      let p2 := pf_set_queue Q_STALE (pf_stale p1 ++ [k]) p1 in
      Some (pf_set_info ((k, (Q_STALE, ev)) :: info_del k (pf_info p2)) p2)
  | _ => None                                        (* lines 145, 148 assertions *)
  end.

(** cs-policy-priority-fifo.cpp:82-102 evictOne: the victim *)
Definition pf_victim (p : pf) : option key :=
  match pf_unsol p with
  | k :: _ => Some k
  | [] => match pf_stale p with
          | k :: _ => Some k
          | [] => match pf_fifo p with
                  | k :: _ => Some k
                  | [] => None                       (* line 85 assertion *)
                  end
          end
  end.

(** cs-policy-priority-fifo.cpp:72-80 evictEntries.  [fuel] bounds the loop;
    the callers pass the table size, and running out is the outcome [None]. *)
Fixpoint pf_evict (fuel : nat) (limit : N) (p : pf) (t : list entry) : option (pf * list entry) :=
  if (N.of_nat (length t) <=? limit)%N then Some (p, t)
  else match fuel with
       | O => None
       | S f =>
           match pf_victim p with
           | None => None
           | Some k => match pf_detach k p with
                       | None => None
                       | Some p' => pf_evict f limit p' (tbl_erase k t)
                       end
           end
       end.

(** * Content store *)

Inductive policy := P_lru (q : list key) | P_pf (p : pf).
Inductive policy_kind := K_lru | K_pf.
(** cs-policy.cpp Policy::create *)
Definition policy_new (k : policy_kind) : policy :=
  match k with K_lru => P_lru [] | K_pf => P_pf pf_empty end.

(** cs.hpp:184-190 members of Cs (the limit lives in the policy object) *)
Record cs := Cs {
  cs_table : list entry;
  cs_policy : policy;
  cs_limit : N;
  cs_admit : bool;
  cs_serve : bool;
}.

Definition cs_with (s : cs) (t : list entry) (p : policy) : cs :=
  Cs t p (cs_limit s) (cs_admit s) (cs_serve s).

(** virtual Policy::evictEntries *)
Definition evict_entries (s : cs) : option cs :=
  match cs_policy s with
  | P_lru q =>
      match lru_evict (cs_limit s) q (cs_table s) with
      | Some (q', t') => Some (cs_with s t' (P_lru q'))
      | None => None
      end
  | P_pf p =>
      match pf_evict (length (cs_table s)) (cs_limit s) p (cs_table s) with
      | Some (p', t') => Some (cs_with s t' (P_pf p'))
      | None => None
      end
  end.

(** cs-policy.cpp:74-79, cs-policy-lru.cpp:38-43,
    cs-policy-priority-fifo.cpp:46-51: afterInsert *)
Definition after_insert (now : Z) (e : entry) (s : cs) : option cs :=
  match cs_policy s with
  | P_lru q =>
      match lru_insert_to_queue (e_key e) true q with
      | Some q' => evict_entries (cs_with s (cs_table s) (P_lru q'))
      | None => None
      end
  | P_pf p =>
      match pf_attach now e p with
      | Some p' => evict_entries (cs_with s (cs_table s) (P_pf p'))
      | None => None
      end
  end.

(** cs-policy.cpp:81-86, cs-policy-lru.cpp:45-49,
    cs-policy-priority-fifo.cpp:53-58: afterRefresh *)
Definition after_refresh (now : Z) (e : entry) (s : cs) : option cs :=
  match cs_policy s with
  | P_lru q =>
      match lru_insert_to_queue (e_key e) false q with
      | Some q' => Some (cs_with s (cs_table s) (P_lru q'))
      | None => None
      end
  | P_pf p =>
      match pf_detach (e_key e) p with
      | Some p1 => match pf_attach now e p1 with
                   | Some p2 => Some (cs_with s (cs_table s) (P_pf p2))
                   | None => None
                   end
      | None => None
      end
  end.

(** cs-policy.cpp:88-93, cs-policy-lru.cpp:51-55 (multi-index erase by key,
    silent if absent), cs-policy-priority-fifo.cpp:60-64: beforeErase *)
Definition before_erase (k : key) (s : cs) : option cs :=
  match cs_policy s with
  | P_lru q => Some (cs_with s (cs_table s) (P_lru (key_remove k q)))
  | P_pf p => match pf_detach k p with
              | Some p' => Some (cs_with s (cs_table s) (P_pf p'))
              | None => None
              end
  end.

(** cs-policy.cpp:95-100, cs-policy-lru.cpp:57-61,
    cs-policy-priority-fifo.cpp:66-70: beforeUse *)
Definition before_use (k : key) (s : cs) : option cs :=
  match cs_policy s with
  | P_lru q => match lru_insert_to_queue k false q with
               | Some q' => Some (cs_with s (cs_table s) (P_lru q'))
               | None => None
               end
  | P_pf p => match info_get k (pf_info p) with
              | Some _ => Some s
              | None => None
              end
  end.

(** cs.cpp:42-46 Cs::Cs *)
Definition cs_init (limit : N) : cs := Cs [] (policy_new K_lru) limit true true.

(** cs.cpp:48-80 Cs::insert *)
Definition cs_insert (now : Z) (d : data) (unsol : bool) (s : cs) : option cs :=
  if negb (cs_admit s) || (cs_limit s =? 0)%N then Some s
  else if d_nocache d then Some s
  else
    let '(t1, is_new) := tbl_emplace (mk_entry now d unsol) (cs_table s) in
    let k := data_key d in
    let t2 := tbl_update k (update_fresh_until now) t1 in
    if is_new then
      match tbl_get k t2 with
      | Some e => after_insert now e (cs_with s t2 (cs_policy s))
      | None => None
      end
    else
      let t3 := tbl_update k (fun e => if e_unsol e && negb unsol
                                       then clear_unsolicited e else e) t2 in
      match tbl_get k t3 with
      | Some e => after_refresh now e (cs_with s t3 (cs_policy s))
      | None => None
      end.

(** cs.cpp:82-91 Cs::findPrefixRange, as indices into the table *)
Definition find_prefix_range (p : name) (t : list entry) : nat * nat :=
  (lower_bound p t,
   match p with
   | [] => length t
   | _ => lower_bound (name_succ p) t
   end).

(** the entries of [first, last) *)
Definition range_entries (r : nat * nat) (t : list entry) : list entry :=
  take (r.2 - r.1) (drop r.1 t).

(** cs.cpp:93-106 Cs::eraseImpl: the loop, over the entries of the range *)
Fixpoint erase_loop (range : list entry) (limit : N) (n : N) (s : cs) : option (cs * N) :=
  match range with
  | [] => Some (s, n)
  | e :: range' =>
      if (n <? limit)%N then
        match before_erase (e_key e) s with
        | Some s' => erase_loop range' limit (n + 1)
                       (cs_with s' (tbl_erase (e_key e) (cs_table s')) (cs_policy s'))
        | None => None
        end
      else Some (s, n)
  end.
Definition cs_erase (p : name) (limit : N) (s : cs) : option (cs * N) :=
  erase_loop (range_entries (find_prefix_range p (cs_table s)) (cs_table s)) limit 0 s.

(** cs.cpp:108-127 Cs::findImpl and cs.hpp:80-89 Cs::find *)
Definition cs_find (now : Z) (i : interest) (s : cs) : option (cs * option data) :=
  if negb (cs_serve s) || (cs_limit s =? 0)%N then Some (s, None)
  else
    match List.find (can_satisfy now i)
            (range_entries (find_prefix_range (i_name i) (cs_table s)) (cs_table s)) with
    | None => Some (s, None)
    | Some e => match before_use (e_key e) s with
                | Some s' => Some (s', Some (e_data e))
                | None => None
                end
    end.

(** cs.hpp:112-116 Cs::setLimit, cs-policy.cpp:66-72 Policy::setLimit *)
Definition cs_set_limit (limit : N) (s : cs) : option cs :=
  evict_entries (Cs (cs_table s) (cs_policy s) limit (cs_admit s) (cs_serve s)).

(** cs.cpp:129-148 Cs::setPolicy: the new policy starts with empty queues and
    takes over the limit. *)
Definition cs_set_policy (k : policy_kind) (s : cs) : option cs :=
  cs_set_limit (cs_limit s) (Cs (cs_table s) (policy_new k) 0 (cs_admit s) (cs_serve s)).

(** mgmt/tables-config-section.cpp:108-112 TablesConfigSection::processConfig:
    the only caller of setPolicy *)
Definition cs_configure (limit : N) (k : option policy_kind) (s : cs) : option cs :=
  match cs_set_limit limit s with
  | None => None
  | Some s' => match cs_table s', k with
               | [], Some k => cs_set_policy k s'
               | _, _ => Some s'
               end
  end.

(** A freshness event of the scheduler fires (priority_fifo only). *)
Definition cs_timer (now : Z) (ev : N) (s : cs) : option cs :=
  match cs_policy s with
  | P_lru _ => Some s
  | P_pf p =>
      match List.find (fun t => (t.1 =? ev)%N) (pf_timers p) with
      | Some (_, (k, deadline)) =>
          if (deadline <=? now)%Z then
            match pf_move_to_stale k
                    (pf_set_timers (List.filter (fun t => negb (t.1 =? ev)%N) (pf_timers p))
                       (pf_next p) p) with
            | Some p' => Some (cs_with s (cs_table s) (P_pf p'))
            | None => None
            end
          else Some s
      | None => Some s
      end
  end.

(** mgmt/cs-manager.cpp:53-76 changeConfig: capacity, then the two flags *)
Definition cs_change_config (cap : option N) (admit serve : option bool) (s : cs) : option cs :=
  match (match cap with Some c => cs_set_limit c s | None => Some s end) with
  | None => None
  | Some s1 => Some (Cs (cs_table s1) (cs_policy s1) (cs_limit s1)
                       (default (cs_admit s1) admit) (default (cs_serve s1) serve))
  end.

(** mgmt/cs-manager.hpp:69 ERASE_LIMIT and cs-manager.cpp:78-104 erase.  The result is the
    Count field and whether the Capacity field is present, which tells the
    operator that more packets remain. *)
Definition ERASE_LIMIT : N := 256.
Definition SIZE_MAX : N := 2^64 - 1.
Definition prefix_interest (p : name) : interest :=
  Interest p true false 0 4000 None [] None None false.
Definition cs_mgmt_erase (now : Z) (p : name) (count : option N) (s : cs)
    : option (cs * (N * bool)) :=
  let count := default SIZE_MAX count in
  match cs_erase p (N.min count ERASE_LIMIT) s with
  | None => None
  | Some (s1, n) =>
      if (n =? ERASE_LIMIT)%N && (ERASE_LIMIT <? count)%N then
        match cs_find now (prefix_interest p) s1 with
        | None => None
        | Some (s2, Some _) => Some (s2, (n, true))
        | Some (s2, None) => Some (s2, (n, false))
        end
      else Some (s1, (n, false))
  end.

(** * The operations of the content store and their histories *)
Inductive cs_op :=
| OInsert (now : Z) (d : data) (unsol : bool)
| OErase (p : name) (limit : N)
| OFind (now : Z) (i : interest)
| OSetLimit (limit : N)
| OConfigure (limit : N) (k : option policy_kind)
| OConfig (cap : option N) (admit serve : option bool)
| OTimer (now : Z) (ev : N)
| OMgmtErase (now : Z) (p : name) (count : option N).

Inductive cs_out := RNone | RFound (d : option data) | RErased (n : N) | RMgmt (n : N) (more : bool).

Definition cs_step (s : cs) (o : cs_op) : option (cs * cs_out) :=
  match o with
  | OInsert now d u => option_map (fun s' => (s', RNone)) (cs_insert now d u s)
  | OErase p l => option_map (fun r => (r.1, RErased r.2)) (cs_erase p l s)
  | OFind now i => option_map (fun r => (r.1, RFound r.2)) (cs_find now i s)
  | OSetLimit l => option_map (fun s' => (s', RNone)) (cs_set_limit l s)
  | OConfigure l k => option_map (fun s' => (s', RNone)) (cs_configure l k s)
  | OConfig c a v => option_map (fun s' => (s', RNone)) (cs_change_config c a v s)
  | OTimer now ev => option_map (fun s' => (s', RNone)) (cs_timer now ev s)
  | OMgmtErase now p c => option_map (fun r => (r.1, RMgmt r.2.1 r.2.2)) (cs_mgmt_erase now p c s)
  end.

(** run a history; [None] if an assertion fails on the way *)
Fixpoint cs_run (s : cs) (ops : list cs_op) : option (cs * list cs_out) :=
  match ops with
  | [] => Some (s, [])
  | o :: ops' =>
      match cs_step s o with
      | None => None
      | Some (s', r) =>
          match cs_run s' ops' with
          | None => None
          | Some (s'', rs) => Some (s'', r :: rs)
          end
      end
  end.
