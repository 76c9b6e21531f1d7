(** Specification of the content store: an abstract machine over one list of
    items, in eviction order.  It shares with the model only the packet and
    operation types. *)
From Verif Require Import Lib Name_Model Name_Spec Packet_Model Cs_Model.

(** Eviction classes of the priority_fifo policy, lowest evicted first. *)
Inductive class := Unsolicited | Stale | Regular.
Definition class_rank (c : class) : nat :=
  match c with Unsolicited => 0 | Stale => 1 | Regular => 2 end.

(** A cached packet.  [it_fresh_until] is the last instant at which it is fresh. *)
Record item := Item {
  it_data : data;
  it_unsol : bool;
  it_fresh_until : Z;
  it_class : class;
}.

(** The abstract store: [a_items] lists the packets, inside one class from the
    first to the last to be evicted. *)
Record acs := Acs {
  a_items : list item;
  a_kind : policy_kind;
  a_limit : N;
  a_admit : bool;
  a_serve : bool;
}.

(** Two packets are the same packet if they have the same full name. *)
Definition same_packet (d e : data) : Prop :=
  d_name d = d_name e /\ d_digest d = d_digest e.

(** Canonical order of packets: by name, then by digest. *)
Definition data_before (d e : data) : Prop :=
  name_lt (d_name d) (d_name e) \/
  (d_name d = d_name e /\ comp_lt (T_IMPLICIT_DIGEST, d_digest d) (T_IMPLICIT_DIGEST, d_digest e)).

(** The Interest asks for this packet by full name, by name, or by prefix. *)
Definition name_satisfies (i : interest) (d : data) : Prop :=
  i_name i = d_name d ++ [(T_IMPLICIT_DIGEST, d_digest d)] \/
  i_name i = d_name d \/
  (i_cbp i = true /\ i_name i `prefix_of` d_name d).

Definition item_satisfies (now : Z) (i : interest) (it : item) : Prop :=
  name_satisfies i (it_data it) /\
  (i_mbf i = true -> (0 < d_fresh (it_data it))%Z /\ (now <= it_fresh_until it)%Z).

(** A packet lies under a prefix if the prefix is a prefix of its full name. *)
Definition under (p : name) (d : data) : Prop :=
  p `prefix_of` (d_name d ++ [(T_IMPLICIT_DIGEST, d_digest d)]).

(** The freshness deadline of a packet arriving at [now]. *)
Definition fresh_deadline (now : Z) (d : data) : Z := wrap64 (now + ns_of_ms (d_fresh d)).

Definition class_of (k : policy_kind) (now : Z) (unsol : bool) (fresh_until : Z) : class :=
  match k with
  | K_lru => Regular
  | K_pf => if unsol then Unsolicited
            else if decide (now <= fresh_until)%Z then Regular else Stale
  end.

(** Eviction: while over the limit, drop the first item of the lowest class. *)
Inductive evicts (limit : N) : list item -> list item -> Prop :=
| evicts_done l : (N.of_nat (length l) <= limit)%N -> evicts limit l l
| evicts_step l1 it l2 l' :
    (limit < N.of_nat (length (l1 ++ it :: l2)))%N ->
    Forall (fun x => class_rank (it_class it) < class_rank (it_class x)) l1 ->
    Forall (fun x => class_rank (it_class it) <= class_rank (it_class x)) l2 ->
    evicts limit (l1 ++ l2) l' ->
    evicts limit (l1 ++ it :: l2) l'.

Definition a_with (a : acs) (l : list item) : acs :=
  Acs l (a_kind a) (a_limit a) (a_admit a) (a_serve a).

(** the packets cached satisfying [i], the canonically first one is found *)
Definition first_satisfying (now : Z) (i : interest) (l : list item) (it : item) : Prop :=
  it ∈ l /\ item_satisfies now i it /\
  forall it', it' ∈ l -> item_satisfies now i it' ->
    same_packet (it_data it) (it_data it') \/ data_before (it_data it) (it_data it').

Inductive a_insert (now : Z) (d : data) (unsol : bool) (a : acs) : acs -> Prop :=
| a_insert_refused :
    (a_admit a = false \/ a_limit a = 0%N \/ d_nocache d = true) ->
    a_insert now d unsol a a
| a_insert_refresh l1 it l2 :
    a_admit a = true -> (0 < a_limit a)%N -> d_nocache d = false ->
    a_items a = l1 ++ it :: l2 -> same_packet (it_data it) d ->
    let deadline := fresh_deadline now (it_data it) in
    let u := it_unsol it && unsol in
    a_insert now d unsol a
      (a_with a (l1 ++ l2 ++ [Item (it_data it) u deadline (class_of (a_kind a) now u deadline)]))
| a_insert_new l' :
    a_admit a = true -> (0 < a_limit a)%N -> d_nocache d = false ->
    (forall it, it ∈ a_items a -> ~ same_packet (it_data it) d) ->
    let deadline := fresh_deadline now d in
    evicts (a_limit a)
      (a_items a ++ [Item d unsol deadline (class_of (a_kind a) now unsol deadline)]) l' ->
    a_insert now d unsol a (a_with a l').

Inductive a_find (now : Z) (i : interest) (a : acs) : acs -> option data -> Prop :=
| a_find_off : (a_serve a = false \/ a_limit a = 0%N) -> a_find now i a a None
| a_find_miss :
    (forall it, it ∈ a_items a -> ~ item_satisfies now i it) -> a_find now i a a None
| a_find_hit_lru it l1 l2 :
    a_serve a = true -> (0 < a_limit a)%N -> a_kind a = K_lru ->
    a_items a = l1 ++ it :: l2 -> first_satisfying now i (a_items a) it ->
    a_find now i a (a_with a (l1 ++ l2 ++ [it])) (Some (it_data it))
| a_find_hit_pf it :
    a_serve a = true -> (0 < a_limit a)%N -> a_kind a = K_pf ->
    first_satisfying now i (a_items a) it ->
    a_find now i a a (Some (it_data it)).

(** [n] packets under [p] are dropped: all of them, or [limit] of them, and
    then the canonically first ones; nothing else changes. *)
Definition a_erase (p : name) (limit : N) (a a' : acs) (n : N) : Prop :=
  exists victims kept : item -> Prop,
    (forall it, it ∈ a_items a -> victims it \/ kept it) /\
    (forall it, victims it -> it ∈ a_items a /\ under p (it_data it) /\ ~ kept it) /\
    (forall v it, victims v -> it ∈ a_items a -> kept it -> under p (it_data it) ->
       data_before (it_data v) (it_data it)) /\
    ((exists it, it ∈ a_items a /\ kept it /\ under p (it_data it)) -> n = limit) /\
    (n <= limit)%N /\
    (exists vs, Forall victims vs /\ NoDup vs /\ N.of_nat (length vs) = n /\
       a_items a ≡ₚ vs ++ a_items a') /\
    Forall kept (a_items a') /\
    (a_items a') `sublist_of` (a_items a) /\
    a' = a_with a (a_items a').

Definition a_set_limit (limit : N) (a a' : acs) : Prop :=
  exists l', evicts limit (a_items a) l' /\
    a' = Acs l' (a_kind a) limit (a_admit a) (a_serve a).

(** A fresh packet may turn stale once its deadline has passed. *)
Inductive a_timer (now : Z) (a : acs) : acs -> Prop :=
| a_timer_none : a_timer now a a
| a_timer_stale l1 it l2 :
    a_kind a = K_pf -> a_items a = l1 ++ it :: l2 -> it_class it = Regular ->
    (it_fresh_until it <= now)%Z ->
    a_timer now a
      (a_with a (l1 ++ l2 ++ [Item (it_data it) (it_unsol it) (it_fresh_until it) Stale])).

(** The management erase command: at most 256 packets at a time; it reports
    whether a lookup for the prefix still finds something. *)
Definition a_mgmt_erase (now : Z) (p : name) (count : option N) (a a' : acs) (n : N) (more : bool) : Prop :=
  let wanted := match count with Some c => c | None => (2^64 - 1)%N end in
  exists a1, a_erase p (N.min wanted 256) a a1 n /\
    ((n = 256 /\ 256 < wanted)%N ->
      exists r, a_find now (Interest p true false 0 4000 None [] None None false) a1 a' r /\
        more = match r with Some _ => true | None => false end) /\
    (~ (n = 256 /\ 256 < wanted)%N -> a' = a1 /\ more = false).

Inductive a_step (a : acs) : cs_op -> acs -> cs_out -> Prop :=
| a_step_insert now d u a' : a_insert now d u a a' -> a_step a (OInsert now d u) a' RNone
| a_step_erase p limit a' n : a_erase p limit a a' n -> a_step a (OErase p limit) a' (RErased n)
| a_step_find now i a' r : a_find now i a a' r -> a_step a (OFind now i) a' (RFound r)
| a_step_set_limit limit a' : a_set_limit limit a a' -> a_step a (OSetLimit limit) a' RNone
| a_step_configure limit k a1 a' :
    a_set_limit limit a a1 ->
    a' = (match a_items a1, k with
          | [], Some k => Acs [] k (a_limit a1) (a_admit a1) (a_serve a1)
          | _, _ => a1
          end) ->
    a_step a (OConfigure limit k) a' RNone
| a_step_config cap ad se a1 a' :
    (match cap with Some c => a_set_limit c a a1 | None => a1 = a end) ->
    a' = Acs (a_items a1) (a_kind a1) (a_limit a1)
           (default (a_admit a1) ad) (default (a_serve a1) se) ->
    a_step a (OConfig cap ad se) a' RNone
| a_step_timer now ev a' : a_timer now a a' -> a_step a (OTimer now ev) a' RNone
| a_step_mgmt now p count a' n more :
    a_mgmt_erase now p count a a' n more -> a_step a (OMgmtErase now p count) a' (RMgmt n more).

Inductive a_run : acs -> list cs_op -> acs -> list cs_out -> Prop :=
| a_run_nil a : a_run a [] a []
| a_run_cons a o a1 r ops a2 rs :
    a_step a o a1 r -> a_run a1 ops a2 rs -> a_run a (o :: ops) a2 (r :: rs).

Definition acs_init (limit : N) : acs := Acs [] K_lru limit true true.

(** Packets a well-behaved network delivers: valid names without an
    implicit-digest component inside the Data name, a 32-octet digest. *)
Definition data_wf (d : data) : Prop :=
  name_valid (d_name d) /\
  Forall (fun c => c.1 <> T_IMPLICIT_DIGEST) (d_name d) /\
  comp_valid (T_IMPLICIT_DIGEST, d_digest d).

Definition op_wf (o : cs_op) : Prop :=
  match o with
  | OInsert _ d _ => data_wf d
  | OErase p _ => name_valid p
  | OFind _ i => name_valid (i_name i)
  | OMgmtErase _ p _ => name_valid p
  | _ => True
  end.

(** * Uses of a packet, for LRU *)

(** Operation [o], taking the store from [s] to [s'] with result [r], uses the
    packet [d]: it inserts it while admission is on, it finds it, or it is a
    management erase that found it to be the first of the remaining ones. *)
Definition uses (d : data) (s : cs) (o : cs_op) (r : cs_out) (s' : cs) : Prop :=
  match o, r with
  | OInsert _ d' _, _ =>
      same_packet d d' /\ cs_admit s = true /\ (0 < cs_limit s)%N /\ d_nocache d' = false
  | OFind _ _, RFound (Some d') => same_packet d d'
  | OMgmtErase _ p _, RMgmt _ true =>
      (exists e, e ∈ cs_table s' /\ same_packet d (e_data e)) /\ under p d /\
      forall e, e ∈ cs_table s' -> under p (e_data e) ->
        same_packet d (e_data e) \/ data_before d (e_data e)
  | _, _ => False
  end.

(** the [n]-th operation of the history used [d] *)
Definition used_at (s0 : cs) (ops : list cs_op) (d : data) (n : nat) : Prop :=
  exists ops1 o ops2 s rs s' r,
    ops = ops1 ++ o :: ops2 /\ length ops1 = n /\
    cs_run s0 ops1 = Some (s, rs) /\ cs_step s o = Some (s', r) /\ uses d s o r s'.

Definition last_used (s0 : cs) (ops : list cs_op) (d : data) (n : nat) : Prop :=
  used_at s0 ops d n /\ forall m, used_at s0 ops d m -> m <= n.

(** [d] is in the store *)
Definition cached (s : cs) (d : data) : Prop :=
  exists e, e ∈ cs_table s /\ same_packet (e_data e) d.

(** operations that may evict *)
Definition evicting (o : cs_op) : Prop :=
  match o with
  | OInsert _ _ _ | OSetLimit _ | OConfigure _ _ | OConfig _ _ _ => True
  | _ => False
  end.

(** the limit in force after an operation *)
Definition new_limit (limit : N) (o : cs_op) : N :=
  match o with
  | OSetLimit l | OConfigure l _ | OConfig (Some l) _ _ => l
  | _ => limit
  end.

(** states reachable by any history, and by one with well-formed packets *)
Definition reach (limit : N) (s : cs) : Prop :=
  exists ops rs, cs_run (cs_init limit) ops = Some (s, rs).
Definition reach_wf (limit : N) (s : cs) : Prop :=
  exists ops rs, Forall op_wf ops /\ cs_run (cs_init limit) ops = Some (s, rs).

(** a cached entry satisfies an Interest *)
Definition entry_satisfies (now : Z) (i : interest) (e : entry) : Prop :=
  name_satisfies i (e_data e) /\
  (i_mbf i = true -> (0 < d_fresh (e_data e))%Z /\ (now <= e_fresh_until e)%Z).

(** all the eviction queues of a policy, in eviction order *)
Definition queues (p : policy) : list (list key) :=
  match p with
  | P_lru q => [q]
  | P_pf p => [pf_unsol p; pf_stale p; pf_fifo p]
  end.

(** [k] comes before [l] in the queue [q] *)
Definition ahead (k l : key) (q : list key) : Prop :=
  exists q1 q2 q3, q = q1 ++ k :: q2 ++ l :: q3.

(** [k] leaves before [l]: it is in an earlier queue, or ahead in the same one *)
Definition evicted_before (k l : key) (qs : list (list key)) : Prop :=
  exists i j qi qj, qs !! i = Some qi /\ qs !! j = Some qj /\ k ∈ qi /\ l ∈ qj /\
    (i < j \/ (i = j /\ ahead k l qi)).

(** the eviction class a packet gets when it arrives: 0 unsolicited, 1 stale, 2 fresh *)
Definition arrival_class (now : Z) (unsol : bool) (deadline : Z) : nat :=
  if unsol then 0 else if (now <=? deadline)%Z then 2 else 1.
