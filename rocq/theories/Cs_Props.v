(** Properties of the content store (C01-C07). *)
From Verif Require Import Lib Name_Model Name_Spec Packet_Model Cs_Model Cs_Spec Cs_Main Cs_Lru.

(** Packets and operations used in the examples. *)
Definition ex_comp (n : N) : comp := (T_GENERIC, [n]).
Definition ex_data (n : N) (fresh : Z) : data :=
  Data [ex_comp 65; ex_comp n] (replicate 32 n) fresh false 0.
Definition ex_ops : list cs_op :=
  [OInsert 0 (ex_data 1 1000) false; OInsert 5 (ex_data 2 0) true;
   OInsert 9 (ex_data 3 1000) false; OFind 10 (prefix_interest [ex_comp 65])].

Lemma ex_ops_wf : Forall op_wf ex_ops.
Proof. repeat constructor; vm_compute; naive_solver. Qed.

(** C01: for every history, the content store runs without a failed assertion
    and holds at most as many packets as the limit last configured. *)
Theorem C01_capacity : forall limit ops, exists s rs,
  cs_run (cs_init limit) ops = Some (s, rs) /\
  cs_limit s = foldl new_limit limit ops /\
  (N.of_nat (length (cs_table s)) <= cs_limit s)%N.
Proof. exact cs_size_bound. Qed.
Print Assumptions C01_capacity.

(** a history in which the capacity forces evictions *)
Example C01_ex :
  option_map (fun r => length (cs_table r.1))
    (cs_run (cs_init 2) (ex_ops ++ [OSetLimit 1])) = Some 1
  /\ option_map (fun r => length (cs_table r.1)) (cs_run (cs_init 2) ex_ops) = Some 2.
Proof. by vm_compute. Qed.

(** C02: a lookup finds the canonically first of the packets that satisfy the
    Interest, and misses only if there is none (or serving is off). *)
Theorem C02_find : forall limit now i s, reach_wf limit s -> exists s' r,
  cs_find now i s = Some (s', r) /\ cs_table s' = cs_table s /\
  match r with
  | Some d => cs_serve s = true /\ (0 < cs_limit s)%N /\
      exists e, e ∈ cs_table s /\ e_data e = d /\ entry_satisfies now i e /\
        forall e', e' ∈ cs_table s -> entry_satisfies now i e' ->
          same_packet d (e_data e') \/ data_before d (e_data e')
  | None => cs_serve s = false \/ cs_limit s = 0%N \/
      forall e, e ∈ cs_table s -> ~ entry_satisfies now i e
  end.
Proof. exact cs_find_main. Qed.
Print Assumptions C02_find.

Example C02_ex : exists s, reach_wf 2 s /\
  option_map snd (cs_find 10 (prefix_interest [ex_comp 65]) s) = Some (Some (ex_data 2 0)) /\
  length (cs_table s) = 2.
Proof.
  eexists. split; [eexists ex_ops, _; split; [apply ex_ops_wf|vm_compute; reflexivity]|].
  by vm_compute.
Qed.

(** What a lookup returns satisfies the Interest, whatever the packets' names. *)
Theorem C02_find_sound : forall limit now i s s' d,
  reach limit s -> cs_find now i s = Some (s', Some d) ->
  exists e, e ∈ cs_table s /\ e_data e = d /\ entry_satisfies now i e.
Proof. exact cs_find_sound_main. Qed.
Print Assumptions C02_find_sound.

(** Without the well-formedness assumption the lookup is not complete: a packet
    whose name has an implicit-digest component in the middle is missed by an
    Interest for the prefix that ends there. *)
Definition ex_weird : data :=
  Data [ex_comp 65; (T_IMPLICIT_DIGEST, replicate 32 1%N); ex_comp 66] (replicate 32 2%N) 0 false 0.
Theorem C02_find_incomplete_refuted : exists limit s now i e,
  reach limit s /\ cs_serve s = true /\ (0 < cs_limit s)%N /\
  e ∈ cs_table s /\ entry_satisfies now i e /\ option_map snd (cs_find now i s) = Some None.
Proof.
  exists 5%N, (Cs [Entry ex_weird false 0] (P_lru [data_key ex_weird]) 5 true true), 0%Z,
    (prefix_interest [ex_comp 65; (T_IMPLICIT_DIGEST, replicate 32 1%N)]), (Entry ex_weird false 0).
  split; [exists [OInsert 0 ex_weird false], [RNone]; by vm_compute|].
  split; [done|]. split; [done|]. split; [left|]. split; [|by vm_compute].
  split; [|done]. right. right. split; [done|]. by exists [ex_comp 66].
Qed.
Print Assumptions C02_find_incomplete_refuted.

(** C03: a refused insertion changes nothing. *)
Theorem C03_insert_refused : forall now d u s,
  cs_admit s = false \/ cs_limit s = 0%N \/ d_nocache d = true -> cs_insert now d u s = Some s.
Proof. exact cs_insert_refused. Qed.
Print Assumptions C03_insert_refused.

(** Re-insertion keeps one copy, renews its deadline and keeps the unsolicited
    mark only if both arrivals were unsolicited. *)
Theorem C03_insert_again : forall limit now d u s e,
  reach limit s -> cs_admit s = true -> (0 < cs_limit s)%N -> d_nocache d = false ->
  e ∈ cs_table s -> same_packet (e_data e) d ->
  exists s', cs_insert now d u s = Some s' /\
    exists rest, cs_table s ≡ₚ e :: rest /\
      cs_table s' ≡ₚ Entry (e_data e) (e_unsol e && u) (fresh_deadline now (e_data e)) :: rest.
Proof. exact cs_insert_again. Qed.
Print Assumptions C03_insert_again.

Example C03_again_ex : exists s e, reach 2 s /\ cs_admit s = true /\ (0 < cs_limit s)%N /\
  e ∈ cs_table s /\ same_packet (e_data e) (ex_data 2 0) /\ e_unsol e = true /\ length (cs_table s) = 2.
Proof.
  eexists _, (Entry (ex_data 2 0) true 5). split; [eexists ex_ops, _; vm_compute; reflexivity|].
  split_and!; try done. left.
Qed.

(** The insertion of a new packet adds it, evicts what exceeds the limit and
    changes no other packet. *)
Theorem C03_insert_new : forall limit now d u s,
  reach limit s -> cs_admit s = true -> (0 < cs_limit s)%N -> d_nocache d = false ->
  ~ cached s d ->
  let new := Entry d u (fresh_deadline now d) in
  exists s', cs_insert now d u s = Some s' /\
    (exists victims, new :: cs_table s ≡ₚ victims ++ cs_table s') /\
    N.of_nat (length (cs_table s')) = N.min (N.of_nat (length (cs_table s)) + 1) (cs_limit s).
Proof. exact cs_insert_fresh. Qed.
Print Assumptions C03_insert_new.

Example C03_new_ex : exists s, reach 2 s /\ cs_admit s = true /\ (0 < cs_limit s)%N /\
  ~ cached s (ex_data 4 0) /\ length (cs_table s) = 2.
Proof.
  eexists. split; [eexists ex_ops, _; vm_compute; reflexivity|].
  split_and!; try done. intros (e & He & Hs). simpl in He.
  repeat (apply elem_of_cons in He as [->|He]; [destruct Hs as [Hs _]; by vm_compute in Hs|]).
  by apply elem_of_nil in He.
Qed.

(** With lru the packet just inserted stays. *)
Theorem C03_lru_insert_kept : forall limit now d u s s',
  reach limit s -> (exists q, cs_policy s = P_lru q) ->
  cs_admit s = true -> (0 < cs_limit s)%N -> d_nocache d = false ->
  cs_insert now d u s = Some s' -> cached s' d.
Proof. exact lru_insert_kept. Qed.
Print Assumptions C03_lru_insert_kept.

(** The freshness deadline, away from 64-bit overflow, is arrival plus FreshnessPeriod. *)
Theorem C03_fresh_deadline : forall now d,
  (0 <= now)%Z -> (0 <= d_fresh d)%Z -> (now + d_fresh d * 1000000 < 2^63)%Z ->
  fresh_deadline now d = (now + d_fresh d * 1000000)%Z.
Proof. exact fresh_deadline_exact. Qed.
Print Assumptions C03_fresh_deadline.
Example C03_fresh_deadline_ex : fresh_deadline 7 (ex_data 1 1000) = 1000000007%Z.
Proof. by vm_compute. Qed.

(** A FreshnessPeriod of about 292 years or more overflows: the packet is
    stale the moment it arrives. *)
Theorem C03_fresh_overflow_refuted : exists now d,
  (0 <= now)%Z /\ (0 < d_fresh d < 2^63)%Z /\ (fresh_deadline now d < now)%Z.
Proof. exists 0%Z, (ex_data 1 (2^44)). by vm_compute. Qed.
Print Assumptions C03_fresh_overflow_refuted.

(** C04: erase removes the first n packets under the prefix and nothing else. *)
Theorem C04_erase : forall limit p n s, reach_wf limit s -> name_valid p -> exists s' m,
  cs_erase p n s = Some (s', m) /\ (m <= n)%N /\
  cs_table s' `sublist_of` cs_table s /\
  (exists victims, cs_table s ≡ₚ victims ++ cs_table s' /\ N.of_nat (length victims) = m /\
     Forall (fun v => under p (e_data v)) victims /\
     forall v e, v ∈ victims -> e ∈ cs_table s' -> under p (e_data e) ->
       data_before (e_data v) (e_data e)) /\
  (m <> n -> forall e, e ∈ cs_table s' -> ~ under p (e_data e)) /\
  Forall2 sublist (queues (cs_policy s')) (queues (cs_policy s)) /\
  cs_limit s' = cs_limit s /\ cs_admit s' = cs_admit s /\ cs_serve s' = cs_serve s.
Proof. exact cs_erase_main. Qed.
Print Assumptions C04_erase.

Example C04_ex : exists s, reach_wf 3 s /\ length (cs_table s) = 3 /\ name_valid [ex_comp 65] /\
  option_map (fun r => (e_data <$> cs_table r.1, r.2)) (cs_erase [ex_comp 65] 2 s)
    = Some ([ex_data 3 1000], 2%N).
Proof.
  eexists. split; [eexists ex_ops, _; split; [apply ex_ops_wf|vm_compute; reflexivity]|].
  split_and!; [done| |by vm_compute]. repeat constructor; vm_compute; naive_solver.
Qed.

(** The management erase command removes at most 256 packets at a time and,
    while serving is on, tells exactly whether packets to be erased remain. *)
Theorem C04_mgmt_erase : forall limit now p count s, reach_wf limit s -> name_valid p ->
  cs_serve s = true -> (0 < cs_limit s)%N ->
  let wanted := match count with Some c => c | None => (2^64 - 1)%N end in
  exists s' n more, cs_mgmt_erase now p count s = Some (s', (n, more)) /\
    (n <= N.min wanted 256)%N /\
    (exists victims, cs_table s ≡ₚ victims ++ cs_table s' /\ N.of_nat (length victims) = n /\
       Forall (fun v => under p (e_data v)) victims) /\
    (more = false -> n = wanted \/ forall e, e ∈ cs_table s' -> ~ under p (e_data e)) /\
    (more = true -> (n < wanted)%N /\ exists e, e ∈ cs_table s' /\ under p (e_data e)).
Proof. exact cs_mgmt_erase_main. Qed.
Print Assumptions C04_mgmt_erase.

Definition ex_many : list cs_op :=
  map (fun n => OInsert 0 (ex_data (N.of_nat n) 0) false) (seq 0 257).
Example C04_mgmt_ex :
  option_map (fun r => (last r.2, length (cs_table r.1)))
    (cs_run (cs_init 300) (ex_many ++ [OMgmtErase 0 [ex_comp 65] None]))
  = Some (Some (RMgmt 256 true), 1).
Proof. by vm_compute. Qed.

(** With serving switched off the command reports completion although a packet
    under the prefix remains. *)
Theorem C04_mgmt_erase_refuted : exists limit s s' now p n e,
  reach limit s /\ cs_mgmt_erase now p None s = Some (s', (n, false)) /\
  e ∈ cs_table s' /\ under p (e_data e).
Proof.
  apply (mgmt_erase_witness 300 (ex_many ++ [OConfig None None (Some false)]) 0 [ex_comp 65]).
  by vm_compute.
Qed.
Print Assumptions C04_mgmt_erase_refuted.

(** C05: with lru, a packet evicted was last used before every packet that stays. *)
Theorem C05_lru : forall limit ops o s rs s' r,
  Forall op_wf ops -> op_wf o -> cs_run (cs_init limit) ops = Some (s, rs) ->
  (exists q, cs_policy s = P_lru q) -> cs_step s o = Some (s', r) -> evicting o ->
  forall v w, cached s v -> ~ cached s' v -> cached s' w ->
  exists nv nw, last_used (cs_init limit) ops v nv /\
    last_used (cs_init limit) (ops ++ [o]) w nw /\ nv < nw.
Proof. exact lru_evicts_oldest. Qed.
Print Assumptions C05_lru.

(** packet 3 is evicted, as packet 2 was looked up after it *)
Example C05_ex : exists s rs s' r, cs_run (cs_init 2) ex_ops = Some (s, rs) /\
  cs_step s (OInsert 11 (ex_data 4 0) false) = Some (s', r) /\
  d_name ∘ e_data <$> cs_table s = [d_name (ex_data 2 0); d_name (ex_data 3 0)] /\
  d_name ∘ e_data <$> cs_table s' = [d_name (ex_data 2 0); d_name (ex_data 4 0)].
Proof. do 4 eexists. split; [vm_compute; reflexivity|]. by split_and!; vm_compute. Qed.

(** C06: with priority_fifo, packets leave in the order of the queues:
    unsolicited, stale, fresh, and in each queue the first one first. *)
Theorem C06_priority_fifo : forall limit s p o s' r,
  reach limit s -> cs_policy s = P_pf p -> cs_step s o = Some (s', r) -> evicting o ->
  forall v w, cached s v -> ~ cached s' v -> cached s w -> cached s' w ->
  evicted_before (data_key v) (data_key w) (queues (cs_policy s)).
Proof. exact pf_evict_order. Qed.
Print Assumptions C06_priority_fifo.

(** An arriving packet goes to the end of the queue of its class, and is
    itself dropped only if its class is below that of every other packet. *)
Theorem C06_insert_class : forall limit s p now d u s',
  reach limit s -> cs_policy s = P_pf p -> cs_insert now d u s = Some s' ->
  cs_admit s = true -> (0 < cs_limit s)%N -> d_nocache d = false ->
  (forall e, e ∈ cs_table s' -> same_packet (e_data e) d ->
     exists q, queues (cs_policy s') !! arrival_class now (e_unsol e) (e_fresh_until e) = Some q /\
       last q = Some (data_key d)) /\
  (~ cached s' d ->
     cs_table s' ≡ₚ cs_table s /\
     forall e, e ∈ cs_table s -> exists j q, queues (cs_policy s) !! j = Some q /\ e_key e ∈ q /\
       arrival_class now u (fresh_deadline now d) < j).
Proof. exact pf_insert_main. Qed.
Print Assumptions C06_insert_class.

(** Every packet in the fresh queue has a timer that moves it to the end of the
    stale queue once its deadline has come, and not before. *)
Theorem C06_turns_stale : forall limit s p e,
  reach limit s -> cs_policy s = P_pf p -> e ∈ cs_table s -> e_key e ∈ pf_fifo p ->
  exists ev, forall now,
    ((now < e_fresh_until e)%Z -> cs_timer now ev s = Some s) /\
    ((e_fresh_until e <= now)%Z -> exists p' q1 q2,
       cs_timer now ev s = Some (cs_with s (cs_table s) (P_pf p')) /\
       pf_fifo p = q1 ++ e_key e :: q2 /\ pf_fifo p' = q1 ++ q2 /\
       pf_stale p' = pf_stale p ++ [e_key e] /\ pf_unsol p' = pf_unsol p).
Proof. exact pf_timer_main. Qed.
Print Assumptions C06_turns_stale.

Definition ex_pf_ops : list cs_op :=
  [OConfigure 3 (Some K_pf);
   OInsert 0 (ex_data 1 1000) false; OInsert 5 (ex_data 2 1000) true;
   OInsert 9 (ex_data 3 2000) false; OTimer 1000000000 0].
(** one packet in each of the three queues; the unsolicited one goes first,
    and then the stale one *)
Example C06_ex : exists s rs p, cs_run (cs_init 10) ex_pf_ops = Some (s, rs) /\ cs_policy s = P_pf p /\
  pf_unsol p = [data_key (ex_data 2 1000)] /\ pf_stale p = [data_key (ex_data 1 1000)] /\
  pf_fifo p = [data_key (ex_data 3 2000)] /\
  option_map (fun r => e_key <$> cs_table r.1) (cs_step s (OSetLimit 1)) = Some [data_key (ex_data 3 2000)].
Proof. do 3 eexists. split; [vm_compute; reflexivity|]. by split_and!; vm_compute. Qed.

(** C07: no operation of any history fails an assertion, and every cached
    packet is in exactly one eviction queue and every queued packet is cached. *)
Theorem C07_no_assertion : forall limit ops, cs_run (cs_init limit) ops <> None.
Proof. intros limit ops. destruct (cs_size_bound limit ops) as (s & rs & H & _). by rewrite H. Qed.
Print Assumptions C07_no_assertion.

Theorem C07_queues : forall limit s, reach limit s ->
  concat (queues (cs_policy s)) ≡ₚ e_key <$> cs_table s /\ NoDup (concat (queues (cs_policy s))).
Proof. exact queues_perm. Qed.
Print Assumptions C07_queues.

(** The content store behaves as the abstract store of Cs_Spec: same results,
    same packets, same configuration, for every history. *)
Theorem C07_refines_abstract_store : forall limit ops, Forall op_wf ops -> exists s rs a,
  cs_run (cs_init limit) ops = Some (s, rs) /\ a_run (acs_init limit) ops a rs /\
  cs_table s ≡ₚ (fun it => Entry (it_data it) (it_unsol it) (it_fresh_until it)) <$> a_items a /\
  cs_limit s = a_limit a /\ cs_admit s = a_admit a /\ cs_serve s = a_serve a.
Proof. exact cs_refines. Qed.
Print Assumptions C07_refines_abstract_store.
