(** Every reachable name tree satisfies its invariant; the results restated through
    the public searches. *)
From stdpp Require Import gmap.
From Verif Require Import Lib Name_Model Name_Proof Nt_Model Nt_Spec Nt_Hash Nt_Tree Nt_Ops Nt_Enum.

(** ** the options NFD uses are acceptable *)
Lemma round_bits_lower p : (4 * p <= 5 * round_bits 24 p)%N.
Proof.
  unfold round_bits. set (s := (N.log2 p - (24 - 1))%N).
  destruct (s =? 0)%N eqn:Es; [lia|].
  assert (s = N.log2 p - 23)%N as Hs by (unfold s; lia). clearbody s.
  assert (p <> 0)%N as Hp. { intros ->. simpl in Hs. lia. }
  assert (2 ^ 23 * 2 ^ s <= p)%N as Hle.
  { rewrite <- N.pow_add_r. replace (23 + s)%N with (N.log2 p) by lia. apply N.log2_spec. lia. }
  assert (p - 2 ^ s <= N.shiftl (N.shiftr p s) s)%N as Hq.
  { rewrite N.shiftl_mul_pow2, N.shiftr_div_pow2.
    pose proof (N.div_mod p (2 ^ s) ltac:(by apply N.pow_nonzero)).
    pose proof (N.mod_lt p (2 ^ s) ltac:(by apply N.pow_nonzero)). lia. }
  assert (N.shiftl (N.shiftr p s) s <= N.shiftl (N.shiftr p s + 1) s)%N as Hq'.
  { rewrite !N.shiftl_mul_pow2. lia. }
  change (2 ^ 23)%N with 8388608%N in Hle. repeat case_match; lia.
Qed.
Lemma default_options_ok size : (0 < size)%N -> options_ok (default_options size).
Proof.
  intros H. split; [done|]. split; [simpl; lia|]. intros n _. simpl. unfold float_mul_trunc.
  unfold N.shiftr. pose proof (round_bits_lower n). pose proof (round_bits_lower (2 * round_bits 24 n)). lia.
Qed.

Section run.
  Context {E : Type} (e0 : E) (hs : E -> bool) (hc : comp -> N) (opts : ht_options).
  Hypothesis Hopts : options_ok opts.
  Notation node := (node (E:=E)).
  Notation hashtable := (hashtable (E:=E)).
  Notation entry t n := (nt_find_exact e0 hc opts n None t).
  Notation stored := (stored e0 hc opts).
  Notation reachable := (nt_reachable e0 hs hc opts).
  Implicit Types (t : hashtable) (n : name) (x : node).

  Lemma stored_some t n : nt_inv hc opts t -> is_Some (stored t n) <-> is_Some (abs t !! n).
  Proof. intros Inv. rewrite (stored_cont e0 hs hc opts Hopts t n Inv). apply cont_is_Some. Qed.
  Lemma entry_abs t n : nt_inv hc opts t -> entry t n = abs t !! n.
  Proof. intros Inv. by rewrite (find_exact_ok e0 hs hc opts Hopts t n None Inv), firstn_all. Qed.

  Lemma reachable_inv t : reachable t -> nt_inv hc opts t.
  Proof.
    induction 1 as [|t o t' _ IH Ha Hs].
    - by apply new_ok.
    - destruct o as [n len|n a|n e]; simpl in *.
      + destruct Ha as [H1 H2].
        destruct (lookup_ok e0 hs hc opts Hopts t n len IH H1 H2) as (t1 & Hl & I1 & _).
        rewrite Hl in Hs. by simplify_eq/=.
      + destruct (erase_ok e0 hs hc opts Hopts t n a IH) as (t1 & k & Hl & I1 & _); [by apply stored_some|].
        rewrite Hl in Hs. by simplify_eq/=.
      + simplify_eq. apply set_ok; [done|by apply stored_some].
  Qed.

  Lemma run_new n : stored (ht_new opts) n = None.
  Proof.
    destruct (new_ok (E:=E) hc opts Hopts) as [I C]. rewrite (stored_cont e0 hs hc opts Hopts _ n I), C.
    apply lookup_empty.
  Qed.

  Lemma run_lookup t n len : reachable t -> len <= length n -> len <= 32 ->
    exists t', nt_lookup e0 hc opts n len t = Some (t', take len n) /\ reachable t' /\
      after_lookup e0 (take len n) (stored t) (stored t').
  Proof.
    intros R H1 H2. pose proof (reachable_inv t R) as Inv.
    destruct (lookup_ok e0 hs hc opts Hopts t n len Inv H1 H2) as (t1 & Hl & I1 & Ha).
    exists t1. split; [done|]. split.
    - eapply nt_reach_step with (o := NLookup n len); [done|done|]. simpl. by rewrite Hl.
    - intros k. rewrite !(stored_cont e0 hs hc opts Hopts) by done. apply Ha.
  Qed.

  Lemma garbage_ext (f g : name -> option E) n k : (forall q, f q = g q) ->
    garbage_above hs f n k -> garbage_above hs g n k.
  Proof. intros H [Hp Hg]. split; [done|]. intros q e Hq. apply Hg. by rewrite H. Qed.

  Lemma size_nodes t : nt_inv hc opts t -> ht_size t = N.of_nat (size (abs t)).
  Proof.
    intros [I _]. rewrite (hi_size _ _ _ I). f_equal. unfold abs.
    assert (forall l : list node, NoDup (n_name <$> l) -> length l = size (abs_of l)) as H; [|apply H, I].
    induction l as [|x l IH]; [done|]. intros Hnd. cbn [fmap list_fmap] in Hnd.
    change (NoDup (n_name x :: (n_name <$> l))) in Hnd. apply NoDup_cons in Hnd as [Hx Hnd].
    change (abs_of (x :: l)) with (<[n_name x := x]> (abs_of l)).
    rewrite map_size_insert_None; [simpl; by rewrite IH|].
    apply eq_None_not_Some. intros [y Hy]. apply abs_of_lookup in Hy as [Hy Hn]; [|done].
    apply Hx. rewrite <- Hn. by apply elem_of_list_fmap_1.
  Qed.

  Lemma run_erase t n a : reachable t -> is_Some (stored t n) ->
    exists t' k, nt_erase_if_empty e0 hs hc opts n a t = Some (t', k) /\ reachable t' /\
      after_erase hs n a (stored t) (stored t') /\ ht_size t = (ht_size t' + N.of_nat k)%N.
  Proof.
    intros R Hn. pose proof (reachable_inv t R) as Inv.
    destruct (erase_ok e0 hs hc opts Hopts t n a Inv) as (t1 & k & Hl & I1 & Ha & Hk); [by apply stored_some|].
    exists t1, k. split; [done|]. split; [|split].
    - eapply nt_reach_step with (o := NErase n a); [done|done|]. simpl. by rewrite Hl.
    - assert (forall q, cont t !! q = stored t q) as He.
      { intros q. by rewrite (stored_cont e0 hs hc opts Hopts). }
      assert (forall q, cont t1 !! q = stored t1 q) as He1.
      { intros q. by rewrite (stored_cont e0 hs hc opts Hopts). }
      intros j. rewrite <- He, <- He1. destruct (Ha j) as [A1 A2]. split.
      + intros [Hg Hor]. apply A1. split; [|done]. eapply garbage_ext; [|exact Hg]. done.
      + intros Hng. apply A2. intros [Hg Hor]. apply Hng. split; [|done]. eapply garbage_ext; [|exact Hg]. done.
    - rewrite !size_nodes by done. lia.
  Qed.

  Lemma run_set t n e : reachable t -> is_Some (stored t n) ->
    reachable (nt_set_tables n e t) /\
    forall k, stored (nt_set_tables n e t) k = if bool_decide (k = n) then Some e else stored t k.
  Proof.
    intros R Hn. pose proof (reachable_inv t R) as Inv.
    assert (is_Some (abs t !! n)) as Hn' by (by apply stored_some).
    destruct (set_ok hc opts t n e Inv Hn') as [I1 C1]. split.
    - eapply nt_reach_step with (o := NSet n e); [done|done|done].
    - intros k. rewrite !(stored_cont e0 hs hc opts Hopts) by done. rewrite C1. case_bool_decide as Hk.
      + subst. by rewrite lookup_insert.
      + by rewrite lookup_insert_ne.
  Qed.

  Lemma run_buckets t : reachable t -> (o_min opts <= n_buckets t)%N.
  Proof. intros R. by apply (reachable_inv t R). Qed.

  Lemma run_size t : reachable t -> holds_exactly (stored t) (N.to_nat (ht_size t)).
  Proof.
    intros R. pose proof (reachable_inv t R) as Inv. exists ((map_to_list (abs t)).*1). split_and!.
    - apply NoDup_fst_map_to_list.
    - rewrite size_nodes, Nnat.Nat2N.id by done. by rewrite fmap_length.
    - intros n. rewrite stored_some by done. rewrite elem_of_list_fmap. split.
      + intros ([k y] & -> & H). apply elem_of_map_to_list in H. eauto.
      + intros [y H]. exists (n, y). split; [done|]. by apply elem_of_map_to_list.
  Qed.

  Lemma run_closed t : reachable t -> prefix_closed (stored t).
  Proof.
    intros R n p. pose proof (reachable_inv t R) as Inv. rewrite !stored_some by done.
    apply (closed_prefix hc _ (proj2 Inv)).
  Qed.
  Lemma run_depth t n : reachable t -> is_Some (stored t n) -> length n <= 32.
  Proof.
    intros R. pose proof (reachable_inv t R) as Inv. rewrite stored_some by done. intros [x Hx].
    by eapply Inv.
  Qed.

  Lemma run_links t n x : reachable t -> entry t n = Some x ->
    n_name x = n /\
    n_parent x = (if decide (n = []) then None else Some (take (length n - 1) n)) /\
    NoDup (n_children x) /\
    (forall c, c ∈ n_children x <-> is_Some (stored t c) /\ exists k, c = n ++ [k]).
  Proof.
    intros R. pose proof (reachable_inv t R) as Inv. rewrite entry_abs by done. intros Hx.
    split_and!.
    - by eapply Inv.
    - by apply Inv.
    - by eapply Inv.
    - intros c. rewrite stored_some by done. rewrite (ti_child _ (proj2 Inv) n x c Hx). split.
      + intros (Hs & Hc0 & Hp). split; [done|]. destruct (snoc_inv c Hc0) as (p & k & ->).
        rewrite par_snoc in Hp. subst. eauto.
      + intros (Hs & k & ->). split_and!; [done|by destruct n|apply par_snoc].
  Qed.

  (** a stored prefix of [n] that the selector accepts *)
  Definition selected t n (sel : node -> bool) (q : name) : Prop :=
    exists y, entry t q = Some y /\ sel y = true /\ q `prefix_of` n.

  Lemma longest_is t n sel r : nt_inv hc opts t -> longest_selected t n sel r ->
    is_longest (selected t n sel) (n_name <$> r) /\ (forall x, r = Some x -> entry t (n_name x) = Some x).
  Proof.
    intros Inv Hl. destruct r as [x|]; simpl in *.
    - destruct Hl as (Hs & Hx & Hp & Hlong). split.
      + split; [exists x; by rewrite entry_abs|]. intros q (y & Hy & Hsy & Hq).
        rewrite entry_abs in Hy by done.
        destruct (Nat.le_gt_cases (length q) (length (n_name x))) as [|Hgt]; [done|].
        by rewrite (Hlong q y Hy Hq Hgt) in Hsy.
      + intros ? [= <-]. by rewrite entry_abs.
    - split; [|done]. intros q (y & Hy & Hsy & Hq). rewrite entry_abs in Hy by done.
      by rewrite (Hl q y Hy Hq) in Hsy.
  Qed.

  Lemma run_lpm t n sel : reachable t ->
    exists r, nt_lpm e0 hc opts n sel t = Some r /\ is_longest (selected t n sel) (n_name <$> r) /\
      (forall x, r = Some x -> entry t (n_name x) = Some x).
  Proof.
    intros R. pose proof (reachable_inv t R) as Inv.
    destruct (lpm_ok e0 hs hc opts Hopts t n sel Inv) as (r & Hr & Hl). exists r. split; [done|].
    by apply longest_is.
  Qed.
  Lemma run_lpm_entry t n sel : reachable t -> is_Some (stored t n) ->
    exists r, nt_lpm_entry e0 hc opts n sel t = Some r /\ is_longest (selected t n sel) (n_name <$> r) /\
      (forall x, r = Some x -> entry t (n_name x) = Some x).
  Proof.
    intros R Hn. pose proof (reachable_inv t R) as Inv. apply stored_some in Hn; [|done].
    destruct (lpm_entry_ok e0 hs hc opts Hopts t n sel Inv Hn) as (r & Hr & Hl). exists r. split; [done|].
    by apply longest_is.
  Qed.
  Lemma run_lpm_pit t n at_ sel : reachable t -> is_Some (stored t at_) -> at_ `prefix_of` n ->
    exists r, nt_lpm_pit e0 hc opts n at_ sel t = Some r /\ is_longest (selected t n sel) (n_name <$> r) /\
      (forall x, r = Some x -> entry t (n_name x) = Some x).
  Proof.
    intros R Hn Hp. pose proof (reachable_inv t R) as Inv. apply stored_some in Hn; [|done].
    destruct (lpm_pit_ok e0 hs hc opts Hopts t n at_ sel Inv Hp Hn) as (r & Hr & Hl). exists r. split; [done|].
    by apply longest_is.
  Qed.

  Lemma run_full t sel fuel : reachable t -> N.to_nat (ht_size t) < fuel ->
    exists l, nt_full_enumerate fuel sel t = Some l /\ NoDup (n_name <$> l) /\
      forall x, x ∈ l <-> entry t (n_name x) = Some x /\ sel x = true.
  Proof.
    intros R Hf. pose proof (reachable_inv t R) as Inv. exists (List.filter sel (nodes t)). split_and!.
    - eapply full_enumerate_ok; [done|done|exact Hopts|]. rewrite (hi_size _ _ _ (proj1 Inv)) in Hf. lia.
    - pose proof (hi_nodup _ _ _ (proj1 Inv)) as Hnd. revert Hnd. generalize (nodes t).
      induction l as [|x l IH]; simpl; [done|]. change (n_name <$> x :: l) with (n_name x :: (n_name <$> l)).
      intros [Hx Hnd]%NoDup_cons. destruct (sel x); [|by apply IH].
      change (n_name <$> x :: List.filter sel l) with (n_name x :: (n_name <$> List.filter sel l)).
      apply NoDup_cons. split; [|by apply IH]. intros (y & Hy & Hin)%elem_of_list_fmap. apply Hx.
      rewrite Hy. apply elem_of_list_fmap_1. apply elem_of_list_In, filter_In in Hin as [Hin _].
      by apply elem_of_list_In.
    - intros x. rewrite entry_abs by done. rewrite elem_of_list_In, filter_In, <- elem_of_list_In.
      unfold abs. rewrite abs_of_lookup by apply Inv. naive_solver.
  Qed.

  Lemma run_partial t p sel : reachable t ->
    exists l f0, (forall fuel, f0 <= fuel -> nt_partial_enumerate e0 hc opts fuel p sel t = Some l) /\
      NoDup l /\ StronglySorted (fun a b : name => b `prefix_of` a -> a = b) l /\
      forall q, q ∈ l <-> exists y, entry t q = Some y /\ p `prefix_of` q /\ (sel y).1 = true /\
        forall r z, p `prefix_of` r -> r `prefix_of` q -> r <> q -> entry t r = Some z -> (sel z).2 = true.
  Proof.
    intros R. pose proof (reachable_inv t R) as Inv.
    destruct (partial_enumerate_ok e0 hc opts t p sel Hopts Inv) as (l & f0 & Hl & Hnd & Hs & Hq).
    exists l, f0. split_and!; try done. intros q. rewrite Hq. unfold walks.
    split; intros (y & Hy & H1 & H2 & H3); exists y; split_and!; try done.
    - by rewrite entry_abs.
    - intros r z. rewrite entry_abs by done. apply H3.
    - by rewrite <- entry_abs.
    - intros r z. rewrite <- entry_abs by done. apply H3.
  Qed.

  Lemma run_all t n sel : reachable t ->
    exists l, nt_find_all e0 hc opts n sel t = Some l /\
      StronglySorted (fun a b : node => length (n_name b) < length (n_name a)) l /\
      forall x, x ∈ l <-> entry t (n_name x) = Some x /\ sel x = true /\ n_name x `prefix_of` n.
  Proof.
    intros R. pose proof (reachable_inv t R) as Inv.
    destruct (find_all_ok e0 hs hc opts Hopts t n sel Inv) as (l & Hl & Hnd & Hs & Hq).
    exists l. split_and!; try done. intros x. by rewrite Hq, entry_abs.
  Qed.
End run.

(** runs a history, checking that every operation is allowed (used by examples) *)
Section checked.
  Context {E : Type} (e0 : E) (hs : E -> bool) (hc : comp -> N) (opts : ht_options).
  Definition nt_allowed_b (t : hashtable (E:=E)) (o : nt_op E) : bool :=
    match o with
    | NLookup n len => (len <=? length n)%nat && (len <=? 32)%nat
    | NErase n _ | NSet n _ => match stored e0 hc opts t n with Some _ => true | None => false end
    end.
  Fixpoint nt_run_checked (ops : list (nt_op E)) (t : hashtable (E:=E)) : option hashtable :=
    match ops with
    | [] => Some t
    | o :: ops' => if nt_allowed_b t o
                   then match nt_step e0 hs hc opts t o with
                        | Some t' => nt_run_checked ops' t'
                        | None => None
                        end
                   else None
    end.
  Lemma run_checked ops t t' : nt_reachable e0 hs hc opts t -> nt_run_checked ops t = Some t' ->
    nt_reachable e0 hs hc opts t'.
  Proof.
    revert t. induction ops as [|o ops IH]; intros t R; cbn [nt_run_checked]; [by intros [= <-]|].
    destruct (nt_allowed_b t o) eqn:Ea; [|done]. destruct (nt_step e0 hs hc opts t o) as [t1|] eqn:Es; [|done].
    apply IH. eapply nt_reach_step; [done| |done]. destruct o as [n len|n a|n e]; simpl in *.
    - apply andb_true_iff in Ea. lia.
    - destruct (stored e0 hc opts t n); eauto; done.
    - destruct (stored e0 hc opts t n); eauto; done.
  Qed.
End checked.
