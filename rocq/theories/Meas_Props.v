(** Property C22: measurements. *)
From stdpp Require Import gmap.
From Verif Require Import Lib Name_Model Name_Proof Packet_Model Nt_Model Tree_Model Tree_Proof Tab_Model Tab_Spec Tab_At Tab_Fib Tab_Pit Tab_Pit2 Tab_Meas Tab_Sc Tab_Clean Tab_Run Tab_Main Fib_Props Pit_Props.

Section props.
  Variable sort : list nexthop -> list nexthop.
  Variable cs : name -> create_result.
  Variable st : name -> name -> bool.
  Notation reachable := (tab_reachable sort cs st).
  Notation env_ok := (env_ok sort st).

  (** C22: an entry that exists has not reached its deadline; size() is the number of entries. *)
  Theorem C22_alive T n m : env_ok -> reachable T -> meas_at T n = Some m -> me_name m = n /\ (now T < me_expiry m)%Z.
  Proof. intros [Hs Hr] R H. apply (reachable_inv sort cs st Hs Hr) in R. destruct (proj1 (ti_meas _ R) n m H) as (? & _ & ?). done. Qed.
  Theorem C22_size T : env_ok -> reachable T -> counter_ok (meas_n T) (fun n => meas_at T n).
  Proof. intros [Hs Hr] R. apply (reachable_inv sort cs st Hs Hr) in R. exact (proj2 (ti_meas _ R)). Qed.

  (** C22: get returns the entry of the name (cut at 32 components), creating it with a
      lifetime of 4 s and no information; no other entry or table changes. *)
  Theorem C22_get T n : env_ok -> reachable T ->
    let p := take (Nat.min (length n) 32) n in
    exists T', meas_get n T = Some (T', p) /\
      (forall q, meas_at T' q = if decide (q = p) then Some (default (MeasEntry p (now T + 4000000000) (now T + 4000000000) []) (meas_at T p)) else meas_at T q) /\
      same_fib T T' /\ same_pit T T' /\ same_sc T T' /\ now T' = now T.
  Proof.
    intros [Hs Hr] R p. apply (reachable_inv sort cs st Hs Hr) in R. unfold meas_get.
    destruct (meas_get_at_ok p T (ti_tree _ R) (ti_meas _ R)) as (T1 & T' & E1 & E2 & _ & _ & H3 & _).
    { unfold p. rewrite take_length. lia. }
    exists T'. change (take (Nat.min (length n) MAX_DEPTH) n) with p. rewrite E1, E2. split; [done|]. by apply (only_meas_frame _ _ _ _ H3).
  Qed.
  (** C22: get for a PIT entry; the name used is that of the Interest, without a digest component
      beyond the depth limit. *)
  Theorem C22_get_pit T k : env_ok -> reachable T ->
    exists T' p, meas_get_pit k T = Some (T', p) /\ p `prefix_of` pk_name k /\ (length (pk_name k) <= 32 -> p = pk_name k) /\
      (forall q, meas_at T' q = if decide (q = p) then Some (default (MeasEntry p (now T + 4000000000) (now T + 4000000000) []) (meas_at T p)) else meas_at T q) /\
      same_fib T T' /\ same_pit T T' /\ same_sc T T' /\ now T' = now T.
  Proof.
    intros [Hs Hr] R. apply (reachable_inv sort cs st Hs Hr) in R. unfold meas_get_pit. set (p := if _ && _ then _ else _).
    destruct (meas_get_at_ok p T (ti_tree _ R) (ti_meas _ R)) as (T1 & T' & E1 & E2 & _ & _ & H3 & _).
    { unfold p. destruct (has_digest (pk_name k) && (length (pk_name k) <=? MAX_DEPTH)%nat) eqn:E.
      - apply andb_prop in E as [_ E]. apply Nat.leb_le in E. exact E.
      - rewrite pit_nte_length. unfold nte_depth, MAX_DEPTH. lia. }
    exists T', p. rewrite E1, E2. split; [done|]. split; [|split].
    - unfold p. destruct (has_digest (pk_name k) && _); [done|apply pit_nte_prefix].
    - intros L. unfold p. rewrite (proj2 (Nat.leb_le _ MAX_DEPTH)) by exact L. destruct (has_digest (pk_name k)) eqn:E; [done|]. simpl.
      unfold pit_nte, nte_depth. rewrite E. apply take_ge. unfold MAX_DEPTH. lia.
    - by apply (only_meas_frame _ _ _ _ H3).
  Qed.
  (** C22: getParent *)
  Theorem C22_get_parent T n : env_ok -> reachable T -> is_Some (meas_at T n) ->
    exists T' r, meas_get_parent n T = Some (T', r) /\
      (n = [] -> r = None /\ T' = T) /\
      (n <> [] -> exists p c, n = p ++ [c] /\ r = Some p /\
         (forall q, meas_at T' q = if decide (q = p) then Some (default (MeasEntry p (now T + 4000000000) (now T + 4000000000) []) (meas_at T p)) else meas_at T q)) /\
      same_fib T T' /\ same_pit T T' /\ same_sc T T' /\ now T' = now T.
  Proof.
    intros [Hs Hr] R Hm. apply (reachable_inv sort cs st Hs Hr) in R. destruct n as [|c n] using rev_ind.
    { exists T, None. split; [done|]. split; [done|]. split; [done|]. done. }
    clear IHn. unfold meas_get_parent.
    assert (Hp : present T n).
    { apply (tk_closed _ (ti_tree _ R) (n ++ [c])); [by apply meas_at_present|]. by exists [c]. }
    destruct (meas_get_nte_ok _ T (ti_tree _ R) (ti_meas _ R) Hp) as (T' & E & _ & _ & H3 & _).
    exists T', (Some n). assert (take (length (n ++ [c]) - 1) (n ++ [c]) = n) as ->.
    { rewrite app_length. simpl. replace (length n + 1 - 1) with (length n) by lia. by apply take_app. }
    rewrite E. split; [by destruct n|]. split; [by destruct n|]. split; [|by apply (only_meas_frame _ _ _ _ H3)].
    intros _. exists n, c. split; [done|]. split; [done|]. by apply (only_meas_frame _ _ _ _ H3).
  Qed.
  (** C22: extending sets the deadline to now plus the lifetime unless that is earlier. *)
  Theorem C22_extend T n lt m : env_ok -> reachable T -> meas_at T n = Some m ->
    exists T' m', meas_extend n lt T = Some T' /\ me_name m' = n /\ me_info m' = me_info m /\
      me_expiry m' = Z.max (me_expiry m) (now T + lt) /\
      (forall q, meas_at T' q = if decide (q = n) then Some m' else meas_at T q) /\
      same_fib T T' /\ same_pit T T' /\ same_sc T T' /\ now T' = now T.
  Proof.
    intros [Hs Hr] R Hm. apply (reachable_inv sort cs st Hs Hr) in R.
    destruct (meas_extend_ok n lt T m (ti_tree _ R) (ti_meas _ R) Hm) as (T' & E & _ & _ & H3 & _).
    eexists T', _. split; [done|]. destruct (proj1 (ti_meas _ R) n m Hm) as (Hn & _ & _).
    split; [|split; [|split; [|exact (only_meas_frame _ _ _ _ H3)]]]; destruct (me_expiry m <? now T + lt)%Z eqn:E'; simpl; try done; lia.
  Qed.
  (** C22: as time passes exactly the entries whose deadline is reached disappear, and nothing
      else changes. *)
  Theorem C22_tick T d : env_ok -> reachable T -> (0 <= d)%Z ->
    now (tick d T) = (now T + d)%Z /\
    (forall n, meas_at (tick d T) n = match meas_at T n with
                                      | Some m => if decide (me_expiry m <= now T + d)%Z then None else Some m
                                      | None => None
                                      end) /\
    same_fib T (tick d T) /\ same_pit T (tick d T) /\ same_sc T (tick d T).
  Proof.
    intros [Hs Hr] R Hd. apply (reachable_inv sort cs st Hs Hr) in R.
    destruct (tick_ok d T (ti_tree _ R) (ti_meas _ R) Hd) as (_ & _ & H1 & H2 & H3 & H4 & H5 & H6).
    split; [done|]. split; [|split; [|split]].
    - intros n. rewrite H2. destruct (meas_at T n) as [m|]; [|done]. destruct (me_expiry m <=? now T + d)%Z eqn:E; case_decide; try done; lia.
    - split; [|done]. intros n. rewrite !fib_at_att. apply H3.
    - split; [|done]. intros k. rewrite !pit_at_pview. unfold pview. destruct (H3 (pit_nte (pk_name k))) as (_ & -> & _). done.
    - split; [|done]. intros n. rewrite !sc_at_att. apply H3.
  Qed.
  (** C22: longest prefix match among the first 32 components *)
  Theorem C22_lpm T n pred : env_ok -> reachable T ->
    match meas_lpm n pred T with
    | Some m => meas_at T (me_name m) = Some m /\ pred m = true /\ me_name m `prefix_of` n /\
                (forall q m', q `prefix_of` n -> meas_at T q = Some m' -> pred m' = true -> length q <= length (me_name m))
    | None => forall q m', q `prefix_of` n -> meas_at T q = Some m' -> pred m' = false
    end.
  Proof.
    intros [Hs Hr] R. apply (reachable_inv sort cs st Hs Hr) in R. unfold meas_lpm.
    set (sel := fun (_ : name) e => match e_meas e with Some m => pred m | None => false end).
    destruct (t_lpm_ok nte_empty has_tables (take MAX_DEPTH n) sel (tr T)) as [H1 H2]; [exact (tk_depth _ (ti_tree _ R))|].
    assert (Hq : forall q, q `prefix_of` n -> present T q -> q `prefix_of` take MAX_DEPTH n).
    { intros q Hp Hq. apply (tk_depth _ (ti_tree _ R)) in Hq. destruct Hp as [r ->]. rewrite take_app_ge by exact Hq. by eexists. }
    destruct (t_lpm (take MAX_DEPTH n) sel (tr T)) as [[p e]|]; simpl in H1.
    - specialize (H2 p e eq_refl). destruct H1 as [(Hp & e' & He' & Hs') Hmax]. rewrite H2 in He'. injection He' as <-.
      unfold sel in Hs'. destruct (e_meas e) as [m|] eqn:Em; [|done]. 
      assert (Hm : meas_at T p = Some m) by (unfold meas_at; by rewrite H2).
      destruct (proj1 (ti_meas _ R) p m Hm) as (Hn & _ & _). rewrite Hn. split; [done|]. split; [done|]. split.
      + transitivity (take MAX_DEPTH n); [done|]. eexists. symmetry. apply take_drop.
      + intros q m' Hqn Hqm Hpr. apply Hmax. split; [apply Hq; [done|apply meas_at_present; by eexists]|].
        unfold meas_at in Hqm. destruct (tr T !! q) as [eq|] eqn:Eq; [|done]. exists eq. split; [done|]. unfold sel. by rewrite Hqm.
    - intros q m' Hqn Hqm. apply not_true_iff_false. intros Hpr. apply (H1 q). split; [apply Hq; [done|apply meas_at_present; by eexists]|].
      unfold meas_at in Hqm. destruct (tr T !! q) as [eq|] eqn:Eq; [|done]. exists eq. split; [done|]. unfold sel. by rewrite Hqm.
  Qed.
End props.

Section example.
  Definition ops_meas : list tab_op :=
    [OMeasGet [c 1; c 2]; OTick 1000000000; OMeasParent [c 1; c 2]; OMeasExtend [c 1; c 2] 10000000000; OMeasExtend [c 1] 5].
  Definition T_meas : tables := default new_tables (tab_run isort no_strategy name_eqb ops_meas new_tables).
  Lemma T_meas_reachable : tab_reachable isort no_strategy name_eqb T_meas.
  Proof. apply (tab_run_ok isort no_strategy name_eqb). by vm_compute. Qed.
  Example C22_example : env_ok isort name_eqb /\ tab_reachable isort no_strategy name_eqb T_meas /\
    meas_n T_meas = 2%N /\ (me_expiry <$> meas_at T_meas [c 1; c 2]) = Some 11000000000%Z /\ (me_expiry <$> meas_at T_meas [c 1]) = Some 5000000000%Z /\
    meas_n (tick 4000000000 T_meas) = 1%N /\ meas_n (tick 10000000000 T_meas) = 0%N /\
    (me_name <$> meas_lpm [c 1; c 3] (fun _ => true) T_meas) = Some [c 1].
  Proof. split; [exact example_env|]. split; [exact T_meas_reachable|]. by vm_compute. Qed.
End example.

Print Assumptions C22_alive.
Print Assumptions C22_size.
Print Assumptions C22_get.
Print Assumptions C22_get_pit.
Print Assumptions C22_get_parent.
Print Assumptions C22_extend.
Print Assumptions C22_tick.
Print Assumptions C22_lpm.
