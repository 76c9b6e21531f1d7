(** Properties C13, C14 and C15: the FIB.

    [tab_reachable] ranges over all histories of all operations on FIB, PIT, strategy
    choice and measurements, with face removals and the passage of time, for every
    std::sort ([sort_ok]), every strategy registry [cs] and every equivalence test
    [st] of strategy instances that is reflexive. *)
From stdpp Require Import gmap.
From Verif Require Import Lib Name_Model Name_Proof Packet_Model Nt_Model Tree_Model Tab_Model Tab_Spec Tab_Fib Tab_Run Tab_Main.

Section props.
  Variable sort : list nexthop -> list nexthop.
  Variable cs : name -> create_result.
  Variable st : name -> name -> bool.
  Notation reachable := (tab_reachable sort cs st).
  Definition env_ok : Prop := sort_ok sort /\ forall s, st s s = true.

  (** C13: the nexthops used for a name are those of the longest prefix that has a
      FIB entry; without one, the empty entry is returned. *)
  Theorem C13_lpm T n : env_ok -> reachable T ->
    (exists p, longest_defined (fun m => fib_at T m) n p /\ fib_at T p = Some (fib_lpm n T)) \/
    ((forall p, p `prefix_of` n -> fib_at T p = None) /\ fib_lpm n T = FibEntry [] []).
  Proof. intros [Hs Hr] R. apply (fib_lpm_ok n T). by apply (reachable_inv sort cs st Hs Hr). Qed.

  (** C13: insert creates an entry without nexthops if there is none, changes no
      other prefix and no other table. *)
  Theorem C13_insert T n : env_ok -> reachable T -> length n <= 32 ->
    exists T', fib_insert n T = Some (T', match fib_at T n with None => true | Some _ => false end) /\
      (forall m, fib_at T' m = if decide (m = n) then Some (default (FibEntry n []) (fib_at T n)) else fib_at T m) /\
      same_pit T T' /\ same_meas T T' /\ same_sc T T' /\ now T' = now T.
  Proof.
    intros [Hs Hr] R L. apply (reachable_inv sort cs st Hs Hr) in R. destruct (fib_insert_ok n T (ti_tree _ R) (ti_fib _ R) L) as (T' & H1 & _ & _ & H2).
    exists T'. split; [done|]. by apply (only_fib_frame _ _ _ _ H2).
  Qed.
  (** C13: erase removes that entry and nothing else. *)
  Theorem C13_erase T n : env_ok -> reachable T -> is_Some (fib_at T n) ->
    (forall m, fib_at (fib_erase n T) m = if decide (m = n) then None else fib_at T m) /\
    same_pit T (fib_erase n T) /\ same_meas T (fib_erase n T) /\ same_sc T (fib_erase n T) /\ now (fib_erase n T) = now T.
  Proof.
    intros [Hs Hr] R L. apply (reachable_inv sort cs st Hs Hr) in R. destruct (fib_erase_ok n T (ti_tree _ R) (ti_fib _ R) L) as (_ & _ & H2).
    by apply (only_fib_frame _ _ _ _ H2).
  Qed.
  (** C13, C14: adding or updating a nexthop sets the cost of that face, keeps the costs of
      the others, and changes no other prefix and no other table. *)
  Theorem C14_add T n f c fe : env_ok -> reachable T -> fib_at T n = Some fe ->
    exists T' sig fe', fib_add_nexthop sort n f c T = Some (T', sig) /\
      (forall m, fib_at T' m = if decide (m = n) then Some fe' else fib_at T m) /\
      fe_prefix fe' = n /\
      (forall g, cost_of g (fe_nexthops fe') = if decide (g = f) then Some c else cost_of g (fe_nexthops fe)) /\
      fib_n T' = fib_n T /\ same_pit T T' /\ same_meas T T' /\ same_sc T T' /\ now T' = now T.
  Proof.
    intros [Hs Hr] R Hfe. apply (reachable_inv sort cs st Hs Hr) in R.
    destruct (fib_add_ok sort n f c T Hs (ti_tree _ R) (ti_fib _ R) fe Hfe) as (T' & sg & l' & H1 & _ & _ & H2 & _ & H3 & _).
    exists T', sg, (FibEntry n l'). split; [done|]. destruct (only_fib_frame _ _ _ _ H2) as (Ha & Hb).
    split; [done|]. split; [done|]. split; [done|]. split; [|done].
    unfold fib_add_nexthop in H1. unfold fib_find in Hfe. destruct (tr T !! n) as [e|]; [|done]. rewrite Hfe in H1.
    destruct (add_or_update_nexthop sort f c (fe_nexthops fe)) as [[l i] []]; [destruct (l !! i); [|done]|]; by injection H1 as <- _.
  Qed.
  (** C13, C14: removeNextHop removes that face's nexthop only; the entry goes with its last
      nexthop; without such a nexthop nothing happens. *)
  Theorem C14_remove T n f fe : env_ok -> reachable T -> fib_at T n = Some fe ->
    exists T' res, fib_remove_nexthop n f T = Some (T', res) /\
      same_pit T T' /\ same_meas T T' /\ same_sc T T' /\ now T' = now T /\
      (cost_of f (fe_nexthops fe) = None -> res = NO_SUCH_NEXTHOP /\ T' = T) /\
      (is_Some (cost_of f (fe_nexthops fe)) -> (forall g, g <> f -> cost_of g (fe_nexthops fe) = None) ->
         res = FIB_ENTRY_REMOVED /\ forall m, fib_at T' m = if decide (m = n) then None else fib_at T m) /\
      (is_Some (cost_of f (fe_nexthops fe)) -> (exists g, g <> f /\ is_Some (cost_of g (fe_nexthops fe))) ->
         res = NEXTHOP_REMOVED /\ exists fe', fe_prefix fe' = n /\
           (forall m, fib_at T' m = if decide (m = n) then Some fe' else fib_at T m) /\
           forall g, cost_of g (fe_nexthops fe') = if decide (g = f) then None else cost_of g (fe_nexthops fe)).
  Proof.
    intros [Hs Hr] R Hfe. apply (reachable_inv sort cs st Hs Hr) in R.
    destruct (fib_remove_ok n f T (ti_tree _ R) (ti_fib _ R) fe Hfe) as (T' & res & H1 & _ & _ & H2).
    exists T', res. split; [done|]. destruct (cost_of f (fe_nexthops fe)) as [c|].
    - destruct H2 as (l' & _ & Hc & _ & Ha & Hb). destruct l' as [|h l'].
      + destruct (Hb eq_refl) as [-> Ho]. destruct (only_fib_frame _ _ _ _ Ho) as (Hx & H4 & H5 & H6 & H7).
        do 4 (split; [done|]). split; [done|]. split; [done|].
        intros _ (g & Hg & Hs'). exfalso. specialize (Hc g). rewrite decide_False in Hc by done. rewrite <- Hc in Hs'. by destruct Hs'.
      + destruct Ha as [-> Ho]; [done|]. destruct (only_fib_frame _ _ _ _ Ho) as (Hx & H4 & H5 & H6 & H7).
        do 4 (split; [done|]). split; [done|]. split.
        * intros _ Hg. exfalso. specialize (Hc (nh_face h)). rewrite cost_of_cons, N.eqb_refl in Hc.
          case_decide as Hd; [done|]. by rewrite Hg in Hc.
        * intros _ _. split; [done|]. by exists (FibEntry n (h :: l')).
    - destruct H2 as [-> ->]. do 4 (split; [done|]). split; [done|]. split; by intros [].
  Qed.
  (** C14: nexthop lists are sorted by cost and have each face once, always. *)
  Theorem C14_sorted T n fe : env_ok -> reachable T -> fib_at T n = Some fe ->
    fe_prefix fe = n /\ nexthops_ok (fe_nexthops fe).
  Proof. intros [Hs Hr] R. apply (reachable_inv sort cs st Hs Hr) in R. apply (ti_fib _ R). Qed.

  (** C15: size() is the number of entries, and enumeration lists each once. *)
  Theorem C15_size T : env_ok -> reachable T ->
    NoDup (fe_prefix <$> fib_entries T) /\
    (forall fe, fe ∈ fib_entries T <-> fib_at T (fe_prefix fe) = Some fe) /\
    fib_n T = (N.of_nat (length (fib_entries T)) mod 2 ^ 64)%N.
  Proof.
    intros [Hs Hr] R. apply (reachable_inv sort cs st Hs Hr) in R. destruct (fib_entries_ok T (ti_fib _ R)) as [H1 H2].
    split; [done|]. split; [done|]. destruct (ti_fib _ R) as [F1 (k & Hk & ->)].
    rewrite <- (counts_list (fun n => fib_at T n) fe_prefix (fib_entries T) k); try done. intros n fe Hn. by apply (F1 n fe).
  Qed.
  (** C15 (partial): the signal is emitted exactly when the face is new to the entry,
      carries the right prefix and a nexthop of that entry.  Missing: it need not be
      the nexthop added (see C15_signal_refuted), only if that nexthop is dearer than
      all others. *)
  Theorem C15_signal_partial T n f c fe T' sig : env_ok -> reachable T -> fib_at T n = Some fe ->
    fib_add_nexthop sort n f c T = Some (T', sig) ->
    (is_Some (cost_of f (fe_nexthops fe)) -> sig = None) /\
    (cost_of f (fe_nexthops fe) = None -> exists h fe', sig = Some (n, h) /\ fib_at T' n = Some fe' /\ h ∈ fe_nexthops fe') /\
    (cost_of f (fe_nexthops fe) = None -> (forall h, h ∈ fe_nexthops fe -> (nh_cost h < c)%N) -> sig = Some (n, NextHop f c)).
  Proof.
    intros [Hs Hr] R Hfe Ha. apply (reachable_inv sort cs st Hs Hr) in R. 
    destruct (fib_add_ok sort n f c T Hs (ti_tree _ R) (ti_fib _ R) fe Hfe) as (T2 & sg & l' & H1 & _ & _ & H2 & _ & H3 & H4 & H5).
    rewrite Ha in H1. injection H1 as <- <-. split; [|split].
    - intros [x Hx]. case_decide; [congruence|done].
    - intros Hx. rewrite Hx in H4, H5. simpl in H4, H5. destruct (lookup_lt_is_Some_2 l' (length (fe_nexthops fe))) as [h Hh]; [lia|].
      rewrite Hh in H4. exists h, (FibEntry n l'). split; [done|]. destruct (only_fib_frame _ _ _ _ H2) as [Hf _].
      rewrite Hf, decide_True by done. split; [done|]. simpl. by eapply elem_of_list_lookup_2.
    - intros Hx Hm. eapply signal_max; try done. by apply (ti_fib _ R).
  Qed.
End props.

(** ** Concrete histories *)
Section example.
  (** insertion sort by cost *)
  Fixpoint ins (h : nexthop) (l : list nexthop) : list nexthop :=
    match l with
    | [] => [h]
    | x :: l' => if (nh_cost x <=? nh_cost h)%N then x :: ins h l' else h :: l
    end.
  Definition isort (l : list nexthop) : list nexthop := foldr ins [] l.
  Lemma ins_perm h l : ins h l ≡ₚ h :: l.
  Proof. induction l as [|x l IH]; simpl; [done|]. destruct (nh_cost x <=? nh_cost h)%N; [|done]. rewrite IH. apply Permutation_swap. Qed.
  Lemma ins_sorted h l : StronglySorted cost_le l -> StronglySorted cost_le (ins h l).
  Proof.
    induction 1 as [|x l Hs IH Hx]; simpl; [repeat constructor|]. destruct (nh_cost x <=? nh_cost h)%N eqn:E.
    - constructor; [done|]. rewrite Forall_forall in Hx |- *. intros y Hy. rewrite ins_perm in Hy.
      apply elem_of_cons in Hy as [->|Hy]; [unfold cost_le; lia|by apply Hx].
    - constructor; [by constructor|]. constructor; [unfold cost_le; lia|]. rewrite Forall_forall in Hx |- *.
      intros y Hy. specialize (Hx y Hy). unfold cost_le in *. lia.
  Qed.
  Lemma isort_ok : sort_ok isort.
  Proof.
    intros l. induction l as [|h l [IH1 IH2]]; simpl; [split; [done|constructor]|]. split; [by rewrite ins_perm, IH1|by apply ins_sorted].
  Qed.
  Definition no_strategy (n : name) : create_result := NotRegistered.
  Definition c (k : N) : comp := (8, [k])%N.
  Lemma example_env : env_ok isort name_eqb.
  Proof. split; [exact isort_ok|]. exact name_eqb_refl. Qed.

  Definition ops_fib : list tab_op :=
    [OFibInsert [c 1; c 2]; OFibAdd [c 1; c 2] 300 10; OFibAdd [c 1; c 2] 301 5;
     OFibInsert [c 1]; OFibAdd [c 1] 302 7; OFibAdd [c 1] 302 3]%N.
  Definition T_fib : tables := default new_tables (tab_run isort no_strategy name_eqb ops_fib new_tables).
  Lemma T_fib_reachable : tab_reachable isort no_strategy name_eqb T_fib.
  Proof.
    apply (tab_run_ok isort no_strategy name_eqb). by vm_compute.
  Qed.
  Example C13_example : env_ok isort name_eqb /\ tab_reachable isort no_strategy name_eqb T_fib /\
    fib_lpm [c 1; c 2; c 3] T_fib = FibEntry [c 1; c 2] [NextHop 301 5; NextHop 300 10] /\
    fib_lpm [c 1; c 9] T_fib = FibEntry [c 1] [NextHop 302 3] /\ fib_lpm [c 9] T_fib = FibEntry [] [] /\ fib_n T_fib = 2%N.
  Proof. split; [exact example_env|]. split; [exact T_fib_reachable|]. by vm_compute. Qed.

  (** C15 refuted: at an entry with one nexthop of cost 10, adding face 301 with cost
      5 announces face 300, because the iterator is taken before std::sort. *)
  Theorem C15_signal_refuted : exists T, tab_reachable isort no_strategy name_eqb T /\
    (snd <$> fib_add_nexthop isort [c 1] 301 5 T) = Some (Some ([c 1], NextHop 300 10)).
  Proof.
    exists (default new_tables (tab_run isort no_strategy name_eqb [OFibInsert [c 1]; OFibAdd [c 1] 300%N 10%N] new_tables)).
    split.
    - apply (tab_run_ok isort no_strategy name_eqb). by vm_compute.
    - by vm_compute.
  Qed.
  (** C15 refuted without the hypothesis that the entry exists: Fib::erase(/1) when
      /1/2 has a FIB entry but /1 has none makes size() wrap around. *)
  Theorem C15_erase_absent_refuted : exists T, tab_reachable isort no_strategy name_eqb T /\
    fib_at T [c 1] = None /\ fib_n (fib_erase [c 1] (fib_erase [c 1] T)) = (2 ^ 64 - 1)%N.
  Proof.
    exists (default new_tables (tab_run isort no_strategy name_eqb [OFibInsert [c 1; c 2]] new_tables)). split.
    - apply (tab_run_ok isort no_strategy name_eqb). by vm_compute.
    - by vm_compute.
  Qed.
End example.

Print Assumptions C13_lpm.
Print Assumptions C13_insert.
Print Assumptions C13_erase.
Print Assumptions C14_add.
Print Assumptions C14_remove.
Print Assumptions C14_sorted.
Print Assumptions C15_size.
Print Assumptions C15_signal_partial.
Print Assumptions C15_signal_refuted.
Print Assumptions C15_erase_absent_refuted.
