From Verif Require Import Lib Name_Model Dnl_Model Dnl_Spec.

(** * The double-precision capacity factors *)

Lemma shift_id a s : N.shiftl a s = (a * 2 ^ s)%N.
Proof. apply N.shiftl_mul_pow2. Qed.
Lemma shiftr_id a s : N.shiftr a s = (a / 2 ^ s)%N.
Proof. apply N.shiftr_div_pow2. Qed.

(** rounding error is at most half a unit, and multiples are fixed points from below *)
Lemma round_spec p s :
  let r := (round_half_even p s * 2 ^ s)%N in
  (2 * r <= 2 * p + 2 ^ s /\ 2 * p <= 2 * r + 2 ^ s)%N /\
  (forall k, (k * 2 ^ s <= p)%N -> (k * 2 ^ s <= r)%N) /\
  (forall k, (p < k * 2 ^ s)%N -> (2 * (k * 2 ^ s - p) < 2 ^ s)%N -> (r = k * 2 ^ s)%N).
Proof.
  unfold round_half_even. rewrite !shift_id, !shiftr_id.
  assert (0 < 2 ^ s)%N as Hpos by (apply N.neq_0_lt_0, N.pow_nonzero; lia).
  pose proof (N.div_mod p (2^s) ltac:(lia)) as Hdm.
  pose proof (N.mod_lt p (2^s) ltac:(lia)) as Hlt.
  set (q := (p / 2 ^ s)%N) in *. set (m := (p mod 2 ^ s)%N) in *.
  assert (forall k, (k * 2 ^ s <= p)%N -> (k <= q)%N) as Hk.
  { intros k Hk. destruct (N.le_gt_cases k q); [done|]. nia. }
  assert (forall k, (p < k * 2 ^ s)%N -> (q < k)%N) as Hk2.
  { intros k Hk'. destruct (N.le_gt_cases k q); [|done]. nia. }
  assert (p - q * 2 ^ s = m)%N as -> by lia.
  destruct (s =? 0)%N eqn:Es.
  { apply N.eqb_eq in Es. subst s. change (2^0)%N with 1%N in *.
    split_and!; lia. }
  apply N.eqb_neq in Es.
  assert (2 ^ s = 2 * (1 * 2 ^ (s - 1)))%N as H2.
  { rewrite N.mul_1_l. rewrite <- N.pow_succ_r'. f_equal. lia. }
  set (h := (1 * 2 ^ (s - 1))%N) in *.
  set (P := (2 ^ s)%N) in *. clearbody P h q m.
  destruct (m <? h)%N eqn:E1; [|destruct (h <? m)%N eqn:E2; [|destruct (N.even q)]];
    (split_and!; [lia|lia| |]; intros k Hk1).
  all: try (specialize (Hk k Hk1); nia).
  all: intros Hd; specialize (Hk2 k Hk1).
  all: destruct (N.eq_dec k (q+1)) as [->|]; [nia|].
  all: assert ((q + 2) * P <= k * P)%N by (apply N.mul_le_mono_r; lia); nia.
Qed.

Lemma pow_log2_le p : (0 < p)%N -> (2 ^ (N.log2 p - 52) * 2^52 <= N.max p (2^52))%N.
Proof.
  intros Hp. destruct (N.le_gt_cases 52 (N.log2 p)) as [H|H].
  - rewrite <- N.pow_add_r, N.sub_add by lia. pose proof (N.log2_spec p Hp). lia.
  - replace (N.log2 p - 52)%N with 0%N by lia. lia.
Qed.
Lemma pow_log2_gt p : (0 < p)%N -> (p < 2 ^ (N.log2 p - 52) * 2^53)%N.
Proof.
  intros Hp. pose proof (N.log2_spec p Hp) as [_ H].
  destruct (N.le_gt_cases 52 (N.log2 p)) as [H'|H'].
  - rewrite <- N.pow_add_r. replace (N.log2 p - 52 + 53)%N with (N.succ (N.log2 p)) by lia. done.
  - replace (N.log2 p - 52)%N with 0%N by lia.
    eapply N.lt_le_trans; [exact H|]. rewrite N.mul_1_l. apply N.pow_le_mono_r; lia.
Qed.

Lemma pow2_divide a b : (a <= b)%N -> exists k, (2 ^ b = k * 2 ^ a)%N.
Proof.
  intros. exists (2 ^ (b - a))%N. rewrite <- N.pow_add_r. f_equal. lia.
Qed.

Lemma log2_bound p b : (0 < p)%N -> (p < 2 ^ b)%N -> (N.log2 p < b)%N.
Proof. intros. apply N.log2_lt_pow2; lia. Qed.

Lemma capacity_down_exact c :
  (0 < c)%N -> (c <= MAX_CAPACITY)%N -> times_capacity_down c = (9 * c / 10)%N.
Proof.
  intros H0 Hc. change MAX_CAPACITY with (2^24)%N in Hc.
  unfold times_capacity_down, double_mul_trunc. rewrite shift_id, shiftr_id.
  set (p := (c * 8106479329266893)%N).
  assert (0 < p)%N as Hp by lia.
  pose proof (round_spec p (N.log2 p - 52)) as (He & Hge & _).
  pose proof (pow_log2_le p Hp) as Hle.
  assert (N.log2 p < 77)%N as Hlog by (apply log2_bound; [done|]; unfold p; lia).
  destruct (pow2_divide (N.log2 p - 52) 53 ltac:(lia)) as [k Hk].
  set (s := (N.log2 p - 52)%N) in *.
  set (r := (round_half_even p s * 2 ^ s)%N) in *.
  pose proof (N.div_mod (9 * c) 10 ltac:(lia)) as Hdm.
  pose proof (N.mod_lt (9 * c) 10 ltac:(lia)) as Hlt.
  set (n := (9 * c / 10)%N) in *. set (m := ((9*c) mod 10)%N) in *.
  assert (2 ^ s <= 2 * c)%N as Hs.
  { unfold p in Hle. lia. }
  assert (n * 2^53 <= r)%N as Hlow.
  { rewrite Hk, N.mul_assoc. apply Hge. rewrite <- N.mul_assoc, <- Hk. unfold p. lia. }
  symmetry. apply (N.div_unique _ _ _ (r - n * 2^53)); [|lia].
  enough (r < (n + 1) * 2^53)%N by lia.
  unfold p in He. lia.
Qed.

Lemma capacity_up_exact c :
  (0 < c)%N -> (c <= MAX_CAPACITY)%N -> times_capacity_up c = (6 * c / 5)%N.
Proof.
  intros H0 Hc. change MAX_CAPACITY with (2^24)%N in Hc.
  unfold times_capacity_up, double_mul_trunc. rewrite shift_id, shiftr_id.
  set (p := (c * 5404319552844595)%N).
  assert (0 < p)%N as Hp by lia.
  pose proof (round_spec p (N.log2 p - 52)) as (He & _ & Hup).
  pose proof (pow_log2_le p Hp) as Hle.
  pose proof (pow_log2_gt p Hp) as Hgt.
  assert (N.log2 p < 77)%N as Hlog by (apply log2_bound; [done|]; unfold p; lia).
  destruct (pow2_divide (N.log2 p - 52) 52 ltac:(lia)) as [k Hk].
  set (s := (N.log2 p - 52)%N) in *.
  set (r := (round_half_even p s * 2 ^ s)%N) in *.
  pose proof (N.div_mod (6 * c) 5 ltac:(lia)) as Hdm.
  pose proof (N.mod_lt (6 * c) 5 ltac:(lia)) as Hlt.
  set (n := (6 * c / 5)%N) in *. set (m := ((6*c) mod 5)%N) in *.
  assert (2 ^ s <= 2 * c)%N as Hs.
  { unfold p in Hle. lia. }
  symmetry. apply (N.div_unique _ _ _ (r - n * 2^52)).
  all: destruct (N.eq_dec m 0) as [Hm|Hm].
  1, 3: assert (r = n * 2^52)%N as ->; [|lia];
    rewrite Hk, N.mul_assoc; apply Hup; rewrite <- N.mul_assoc, <- Hk; unfold p in *; lia.
  all: unfold p in He; lia.
Qed.

(** * Histories *)

Lemma positions_lookup x q : forall i p, p ∈ positions i x q -> i <= p /\ q !! (p - i) = Some x.
Proof.
  induction q as [|y q IH]; intros i p Hp; simpl in Hp; [mem|].
  destruct (x =? y)%N eqn:E.
  - apply N.eqb_eq in E as ->. apply elem_of_cons in Hp as [->|Hp].
    + split; [lia|]. by rewrite Nat.sub_diag.
    + apply IH in Hp as [? Hl]. split; [lia|].
      replace (p - i) with (S (p - S i)) by lia. done.
  - apply IH in Hp as [? Hl]. split; [lia|].
    replace (p - i) with (S (p - S i)) by lia. done.
Qed.
Lemma positions_nil x q i : positions i x q = [] <-> x ∉ q.
Proof.
  revert i; induction q as [|y q IH]; intros i; simpl; [split; [intros; apply not_elem_of_nil|done]|].
  rewrite not_elem_of_cons. destruct (x =? y)%N eqn:E.
  - apply N.eqb_eq in E. naive_solver.
  - apply N.eqb_neq in E. rewrite IH. naive_solver.
Qed.

(** Outcome of [add], by whether the fingerprint is present. *)
Lemma dnl_add_cases me d n nonce c :
  let x := me n nonce in
  (x ∉ queue d /\
   dnl_add me d n nonce c = evict_entries (Dnl (queue d ++ [x]) (capacity d) (counts d))) \/
  (exists q1 q2, queue d = q1 ++ x :: q2 /\
   dnl_add me d n nonce c = Dnl (q1 ++ q2 ++ [x]) (capacity d) (counts d)).
Proof.
  intros x. unfold dnl_add. fold x.
  destruct (positions 0 x (queue d)) as [|p0 ps] eqn:E.
  - left. split; [by eapply positions_nil|done].
  - right. set (i := nth _ _ _).
    assert (i ∈ positions 0 x (queue d)) as Hi.
    { rewrite E. apply elem_of_list_In. apply nth_In. apply Nat.mod_upper_bound. done. }
    apply positions_lookup in Hi as [_ Hi]. rewrite Nat.sub_0_r in Hi.
    exists (take i (queue d)), (drop (S i) (queue d)). split.
    + symmetry. by apply take_drop_middle.
    + unfold relocate_to_end. by rewrite Hi.
Qed.

Lemma evict_entries_spec d :
  exists n, queue (evict_entries d) = drop n (queue d) /\
    capacity (evict_entries d) = capacity d /\ counts (evict_entries d) = counts d /\
    N.of_nat n = N.min (N.of_nat (length (queue d)) - capacity d) 64.
Proof.
  unfold evict_entries. destruct (_ <=? _)%N eqn:E.
  - exists 0. split_and!; try done. lia.
  - exists (N.to_nat (N.min (N.of_nat (length (queue d)) - capacity d) EVICT_LIMIT)).
    split_and!; try done. unfold EVICT_LIMIT. lia.
Qed.

Definition cap_ok (d : dnl) : Prop := (MIN_CAPACITY <= capacity d <= MAX_CAPACITY)%N.

Lemma adjust_capacity d :
  capacity (dnl_adjust d) =
    if forallb (fun c => 5 <? c)%N (counts d)
    then N.max MIN_CAPACITY (times_capacity_down (capacity d))
    else if forallb (fun c => c <? 5)%N (counts d)
    then N.min MAX_CAPACITY (times_capacity_up (capacity d))
    else capacity d.
Proof.
  unfold dnl_adjust.
  match goal with |- capacity (evict_entries ?e) = _ =>
    destruct (evict_entries_spec e) as (n & _ & Hc & _) end.
  rewrite Hc. done.
Qed.

Lemma step_cap_ok me d o : cap_ok d -> cap_ok (dnl_step me d o).
Proof.
  unfold cap_ok. intros H. destruct o as [n nonce c| |]; simpl.
  - destruct (dnl_add_cases me d n nonce c) as [[_ ->]|(?&?&?& ->)]; [|done].
    destruct (evict_entries_spec (Dnl (queue d ++ [me n nonce]) (capacity d) (counts d)))
      as (k & _ & -> & _). done.
  - done.
  - rewrite adjust_capacity.
    assert (0 < capacity d)%N by (change MIN_CAPACITY with 1024%N in H; lia).
    rewrite capacity_down_exact, capacity_up_exact by lia.
    change MIN_CAPACITY with 1024%N in *. change MAX_CAPACITY with 16777216%N in *.
    assert (9 * capacity d / 10 <= capacity d)%N by (apply N.div_le_upper_bound; lia).
    assert (capacity d <= 6 * capacity d / 5)%N by (apply N.div_le_lower_bound; lia).
    destruct (forallb _ _); [lia|]. destruct (forallb _ _); lia.
Qed.

Lemma run_cap_ok me h : forall d, cap_ok d -> cap_ok (dnl_run me d h).
Proof. induction h; intros d H; simpl; [done|]. by apply IHh, step_cap_ok. Qed.

Lemma new_spec lt d0 : dnl_new lt = Some d0 ->
  d0 = Dnl [0;0;0;0;0]%N 16384 [].
Proof. unfold dnl_new. destruct (_ <? _)%Z; [done|]. intros [= <-]. done. Qed.

Lemma new_cap_ok lt d0 : dnl_new lt = Some d0 -> cap_ok d0.
Proof. intros ->%new_spec. done. Qed.

Lemma after_cap_ok me h d : dnl_after me h d -> cap_ok d.
Proof. intros (lt & d0 & H & ->). eapply run_cap_ok, new_cap_ok; eauto. Qed.

Lemma run_app me d h1 h2 : dnl_run me d (h1 ++ h2) = dnl_run me (dnl_run me d h1) h2.
Proof. apply foldl_app. Qed.
Lemma run_snoc me d h o : dnl_run me d (h ++ [o]) = dnl_step me (dnl_run me d h) o.
Proof. unfold dnl_run. by rewrite foldl_app. Qed.

(** * Retention *)
Definition within (d : dnl) (x : fingerprint) (k : nat) : Prop :=
  exists q1 q2, queue d = q1 ++ x :: q2 /\ length q2 <= k.

Lemma evict_within d x k :
  within d x k -> (N.of_nat k < capacity d)%N -> within (evict_entries d) x k.
Proof.
  intros (q1 & q2 & Hq & Hl) Hk.
  destruct (evict_entries_spec d) as (n & Hq' & _ & _ & Hn).
  exists (drop n q1), q2. split; [|done].
  rewrite Hq', Hq. apply drop_app_le. rewrite Hq, app_length in Hn. cbn [length] in Hn. lia.
Qed.

Lemma step_within me d x k o :
  within d x k ->
  let k' := if inserts o then S k else k in
  (N.of_nat k' < capacity (dnl_step me d o))%N ->
  within (dnl_step me d o) x k'.
Proof.
  intros W. destruct o as [n nonce c| |]; simpl; intros Hk.
  - destruct (dnl_add_cases me d n nonce c) as [[_ E]|(p1 & p2 & Hp & E)]; rewrite E in *.
    + apply evict_within.
      * destruct W as (q1 & q2 & Hq & Hl). exists q1, (q2 ++ [me n nonce]).
        simpl. rewrite Hq, <- app_assoc. split; [done|]. rewrite app_length. simpl. lia.
      * revert Hk. destruct (evict_entries_spec (Dnl (queue d ++ [me n nonce]) (capacity d) (counts d)))
          as (m & _ & -> & _). done.
    + destruct W as (q1 & q2 & Hq & Hl). unfold within. simpl.
      rewrite Hp in Hq. apply app_eq_inv in Hq as [(l & H1 & H2)|(l & H1 & H2)].
      * destruct l as [|y l]; simpl in H2; injection H2 as E1 E2; subst.
        -- exists (q1 ++ p2), []. rewrite app_nil_r, <- app_assoc. split; [done|simpl; lia].
        -- exists q1, (l ++ p2 ++ [me n nonce]). rewrite <- app_assoc. split; [done|].
           rewrite !app_length in *. simpl in *. lia.
      * destruct l as [|y l]; simpl in H2; injection H2 as E1 E2; subst.
        -- exists (p1 ++ q2), []. rewrite <- app_assoc. split; [done|simpl; lia].
        -- exists (p1 ++ l), (q2 ++ [me n nonce]). rewrite <- !app_assoc. split; [done|].
           rewrite app_length. simpl. lia.
  - destruct W as (q1 & q2 & Hq & Hl). exists q1, (q2 ++ [MARK]).
    simpl. rewrite Hq, <- app_assoc. split; [done|]. rewrite app_length. simpl. lia.
  - unfold dnl_adjust in *. apply evict_within.
    + destruct W as (q1 & q2 & Hq & Hl). exists q1, q2. done.
    + match goal with |- context [capacity ?e] =>
        destruct (evict_entries_spec e) as (m & _ & Hc & _) end.
      by rewrite Hc in Hk.
Qed.

Lemma n_inserts_snoc h o : n_inserts (h ++ [o]) = (n_inserts h + (if inserts o then 1 else 0))%nat.
Proof.
  unfold n_inserts. rewrite filter_app, app_length. f_equal.
  rewrite filter_cons, filter_nil. destruct (inserts o); done.
Qed.

Lemma run_within me d x k t :
  within d x k ->
  (forall t1 t2, t = t1 ++ t2 ->
     (N.of_nat (k + n_inserts t1) < capacity (dnl_run me d t1))%N) ->
  within (dnl_run me d t) x (k + n_inserts t).
Proof.
  induction t as [|o t IH] using rev_ind; intros W Hc.
  - simpl. unfold n_inserts. simpl. by rewrite Nat.add_0_r.
  - rewrite run_snoc, n_inserts_snoc.
    assert (within (dnl_run me d t) x (k + n_inserts t)) as W'.
    { apply IH; [done|]. intros t1 t2 ->. apply (Hc t1 (t2 ++ [o])). by rewrite app_assoc. }
    specialize (Hc (t ++ [o]) [] ltac:(by rewrite app_nil_r)).
    rewrite run_snoc, n_inserts_snoc in Hc.
    pose proof (step_within me _ x _ o W') as Hs. simpl in Hs.
    destruct (inserts o);
      [replace (k + (n_inserts t + 1)) with (S (k + n_inserts t)) in * by lia
      |replace (k + (n_inserts t + 0)) with (k + n_inserts t) in * by lia]; by apply Hs.
Qed.

Lemma within_in d x k : within d x k -> x ∈ queue d.
Proof. intros (q1 & q2 & -> & _). mem. Qed.

Lemma add_within me d n nonce c :
  cap_ok d -> within (dnl_add me d n nonce c) (me n nonce) 0.
Proof.
  intros Hc. destruct (dnl_add_cases me d n nonce c) as [[_ ->]|(q1 & q2 & _ & ->)].
  - apply evict_within; [|simpl; unfold cap_ok in Hc; change MIN_CAPACITY with 1024%N in Hc; lia].
    exists (queue d), []. done.
  - exists (q1 ++ q2), []. simpl. by rewrite <- app_assoc.
Qed.

Lemma retained me h d n nonce c t :
  dnl_after me h d ->
  (forall t1 t2, t = t1 ++ t2 ->
     (N.of_nat (n_inserts t1) < capacity (dnl_run me d (Add n nonce c :: t1)))%N) ->
  dnl_has me (dnl_run me d (Add n nonce c :: t)) n nonce = true.
Proof.
  intros Ha Hc. unfold dnl_has. apply bool_decide_eq_true.
  simpl. eapply within_in, run_within; [apply add_within; by eapply after_cap_ok|].
  intros t1 t2 Ht. apply (Hc t1 t2 Ht).
Qed.

Lemma retained_min me h d n nonce c t :
  dnl_after me h d -> (N.of_nat (n_inserts t) < 1024)%N ->
  dnl_has me (dnl_run me d (Add n nonce c :: t)) n nonce = true.
Proof.
  intros Ha Ht. eapply retained; [done|]. intros t1 t2 ->.
  assert (cap_ok (dnl_run me d (Add n nonce c :: t1))) as Hc.
  { apply run_cap_ok. by eapply after_cap_ok. }
  unfold cap_ok in Hc. change MIN_CAPACITY with 1024%N in Hc.
  unfold n_inserts in *. rewrite filter_app, app_length in Ht. lia.
Qed.

(** * Nothing is invented *)
Lemma in_drop {A} m (l : list A) x : x ∈ drop m l -> x ∈ l.
Proof. intros H. rewrite <- (take_drop m l). apply elem_of_app. by right. Qed.

Lemma step_sub me d o x :
  x ∈ queue (dnl_step me d o) ->
  x ∈ queue d \/ (x = 0%N /\ o = Mark) \/ (exists n nonce c, o = Add n nonce c /\ me n nonce = x).
Proof.
  destruct o as [n nonce c| |]; simpl.
  - destruct (dnl_add_cases me d n nonce c) as [[_ ->]|(q1 & q2 & -> & ->)].
    + destruct (evict_entries_spec (Dnl (queue d ++ [me n nonce]) (capacity d) (counts d)))
        as (m & -> & _). simpl. intros H.
      apply in_drop in H. apply elem_of_app in H as [H| ->%elem_of_list_singleton]; eauto 10.
    + simpl. rewrite !elem_of_app, !elem_of_cons. intros [?|[?|[->|?%elem_of_nil]]]; eauto 10. done.
  - rewrite elem_of_app, elem_of_list_singleton. naive_solver.
  - unfold dnl_adjust. match goal with |- context [evict_entries ?e] =>
        destruct (evict_entries_spec e) as (m & -> & _) end. simpl.
    intros H%in_drop. auto.
Qed.

Lemma only_added me h d n nonce :
  dnl_after me h d -> dnl_has me d n nonce = true ->
  was_added me h (me n nonce) \/ me n nonce = 0%N.
Proof.
  intros (lt & d0 & H0 & ->) H. unfold dnl_has in H. apply bool_decide_eq_true in H.
  revert H. generalize (me n nonce) as x. induction h as [|o h IH] using rev_ind; intros x H.
  - right. apply new_spec in H0 as ->. simpl in H. mem.
  - rewrite run_snoc in H. apply step_sub in H as [H|[[-> _]|(n' & nonce' & c' & -> & <-)]].
    + destruct (IH x H) as [(n1 & c1 & cc & Hin & E)|]; [left|by right].
      exists n1, c1, cc. split; [mem|done].
    + by right.
    + left. exists n', nonce', c'. split; [mem|done].
Qed.

(** * The list is the young end of the unbounded recency list *)
Definition uniq (q : list fingerprint) : Prop := NoDup (filter (fun y => y <> 0%N) q).

Lemma filter_none {A} (P : A -> Prop) `{!forall x, Decision (P x)} (l : list A) :
  (forall x, x ∈ l -> P x) -> filter P l = l.
Proof.
  induction l as [|a l IH]; intros Hl; [done|].
  rewrite filter_cons_True by (apply Hl; mem). f_equal. apply IH. intros x Hx. apply Hl. mem.
Qed.

Lemma uniq_split q1 x q2 : uniq (q1 ++ x :: q2) -> x <> 0%N ->
  filter (fun y => y <> x) (q1 ++ x :: q2) = q1 ++ q2.
Proof.
  unfold uniq. intros U Hx. rewrite filter_app, filter_cons_True in U by done.
  apply NoDup_app in U as (_ & U1 & U2). apply NoDup_cons in U2 as [U2 _].
  rewrite filter_app, filter_cons_False by naive_solver. f_equal; apply filter_none.
  - intros y Hy ->. eapply (U1 x); [|mem]. apply elem_of_list_filter. done.
  - intros y Hy ->. apply U2. apply elem_of_list_filter. done.
Qed.

Lemma uniq_drop n q : uniq q -> uniq (drop n q).
Proof.
  unfold uniq. rewrite <- (take_drop n q) at 1. rewrite filter_app, NoDup_app. naive_solver.
Qed.

Lemma uniq_perm q q' : q ≡ₚ q' -> uniq q -> uniq q'.
Proof. unfold uniq. intros H U. by rewrite <- H. Qed.

Lemma step_suffix me d o l :
  (forall n nonce c, o = Add n nonce c -> me n nonce <> 0%N) ->
  uniq (queue d) -> queue d `suffix_of` l ->
  uniq (queue (dnl_step me d o)) /\ queue (dnl_step me d o) `suffix_of` recency_step me l o.
Proof.
  intros Hz U [old ->]. destruct o as [n nonce c| |]; simpl.
  - specialize (Hz n nonce c eq_refl). pose proof (dnl_add_cases me d n nonce c) as Hcase.
    cbv zeta in Hcase. revert Hcase Hz. generalize (me n nonce). intros x Hcase Hz.
    destruct Hcase as [[Hx ->]|(q1 & q2 & Hq & ->)].
    + match goal with |- context [evict_entries ?e] =>
        destruct (evict_entries_spec e) as (m & -> & _) end. simpl. split.
      * apply uniq_drop. unfold uniq. rewrite filter_app, filter_cons_True, filter_nil by done.
        apply NoDup_app. split_and!; [done| |apply NoDup_singleton].
        intros y [_ Hy]%elem_of_list_filter ->%elem_of_list_singleton. done.
      * rewrite filter_app, (filter_none _ (queue d)) by (intros ? ? E; congruence).
        rewrite <- app_assoc. rewrite <- (take_drop m (queue d ++ [x])) at 2.
        rewrite app_assoc. by exists (filter (fun y => y <> x) old ++ take m (queue d ++ [x])).
    + simpl. rewrite Hq in *. split.
      * eapply uniq_perm; [|exact U]. rewrite <- Permutation_middle, app_assoc. apply Permutation_cons_append.
      * rewrite filter_app, uniq_split by done. exists (filter (fun y => y <> x) old).
        by rewrite <- !app_assoc.
  - split.
    + unfold uniq. rewrite filter_app, filter_cons_False, filter_nil, app_nil_r by (intros H; by apply H).
      done.
    + exists old. by rewrite app_assoc.
  - unfold dnl_adjust. match goal with |- context [evict_entries ?e] =>
        destruct (evict_entries_spec e) as (m & -> & _) end. simpl. split; [by apply uniq_drop|].
    exists (old ++ take m (queue d)). by rewrite <- app_assoc, take_drop.
Qed.

Lemma recency_snoc me h o : recency me (h ++ [o]) = recency_step me (recency me h) o.
Proof. unfold recency. by rewrite foldl_app. Qed.

Lemma suffix_all me h d :
  dnl_after me h d -> hash_avoids_mark me h ->
  uniq (queue d) /\ queue d `suffix_of` recency me h.
Proof.
  intros (lt & d0 & H0 & ->) Hz. apply new_spec in H0 as ->.
  induction h as [|o h IH] using rev_ind.
  - split; [|done]. unfold uniq. simpl. repeat (rewrite filter_cons_False by naive_solver). apply NoDup_nil_2.
  - destruct IH as [U S]. { intros n nonce c H. eapply Hz. apply elem_of_app. eauto. }
    rewrite run_snoc, recency_snoc. apply step_suffix; [|done|done].
    intros n nonce c ->. eapply (Hz n nonce c). mem.
Qed.

(** * Sizes *)
Lemma step_length me d o :
  let len := N.of_nat (length (queue d)) in
  let grown := match o with
               | Add n nonce _ => if dnl_has me d n nonce then len else len + 1
               | Mark => len + 1 | Adjust => len end%N in
  N.of_nat (length (queue (dnl_step me d o))) =
    (if match o with Add n nonce _ => negb (dnl_has me d n nonce) | Mark => false | Adjust => true end
     then grown - N.min (grown - capacity (dnl_step me d o)) 64 else grown)%N.
Proof.
  destruct o as [n nonce c| |]; simpl.
  - destruct (dnl_add_cases me d n nonce c) as [[Hx ->]|(q1 & q2 & Hq & ->)].
    + unfold dnl_has. rewrite bool_decide_eq_false_2 by done. simpl.
      destruct (evict_entries_spec (Dnl (queue d ++ [me n nonce]) (capacity d) (counts d)))
        as (m & -> & -> & _ & Hm). simpl in *. rewrite drop_length, app_length in *. simpl in *. lia.
    + unfold dnl_has. rewrite bool_decide_eq_true_2 by (rewrite Hq; mem). simpl.
      rewrite Hq, !app_length. simpl. lia.
  - rewrite app_length. simpl. lia.
  - unfold dnl_adjust. match goal with |- context [evict_entries ?e] =>
        destruct (evict_entries_spec e) as (m & -> & -> & _ & Hm) end. simpl in *.
    rewrite drop_length. lia.
Qed.

(** * Capacity adjustment in terms of the history *)
Lemma counts_recorded me d0 h : counts d0 = [] ->
  counts (dnl_run me d0 h) = recorded me d0 (rev h).
Proof.
  intros H0. induction h as [|o h IH] using rev_ind; [done|].
  rewrite rev_app_distr, run_snoc. destruct o as [n nonce c| |].
  - simpl. rewrite <- IH. destruct (dnl_add_cases me (dnl_run me d0 h) n nonce c) as [[_ ->]|(?&?&_& ->)]; [|done].
    match goal with |- context [evict_entries ?e] =>
        destruct (evict_entries_spec e) as (m & _ & _ & -> & _) end. done.
  - cbn [rev app recorded]. rewrite <- IH, rev_involutive, run_snoc. done.
  - simpl. unfold dnl_adjust. match goal with |- context [evict_entries ?e] =>
        destruct (evict_entries_spec e) as (m & _ & _ & -> & _) end. done.
Qed.

Lemma adjust_history me lt d0 h :
  dnl_new lt = Some d0 ->
  let d := dnl_run me d0 h in
  let c := capacity d in
  let c' := capacity (dnl_step me d Adjust) in
  let r := recorded me d0 (rev h) in
  (all_above r -> c' = N.max 1024 (9 * c / 10)) /\
  (all_below r -> r <> [] -> c' = N.min 16777216 (6 * c / 5)) /\
  (~ all_above r -> ~ all_below r -> c' = c).
Proof.
  intros H0 d c c' r.
  assert (cap_ok d) as Hc by (apply run_cap_ok; by eapply new_cap_ok).
  assert (counts d = r) as Hr.
  { unfold d, r. apply counts_recorded. by apply new_spec in H0 as ->. }
  pose proof (adjust_capacity d : c' = _) as Hc'.
  rewrite Hr in Hc'. unfold cap_ok in Hc.
  assert (0 < capacity d)%N by (change MIN_CAPACITY with 1024%N in Hc; lia).
  rewrite capacity_down_exact, capacity_up_exact in Hc' by lia. fold c in Hc'.
  change MIN_CAPACITY with 1024%N in *. change MAX_CAPACITY with 16777216%N in *.
  assert (forallb (fun c => 5 <? c)%N r = true <-> all_above r) as Ha.
  { rewrite forallb_forall. unfold all_above. split; intros H1 x Hx;
      specialize (H1 x); rewrite elem_of_list_In in *; specialize (H1 Hx); lia. }
  assert (forallb (fun c => c <? 5)%N r = true <-> all_below r) as Hb.
  { rewrite forallb_forall. unfold all_below. split; intros H1 x Hx;
      specialize (H1 x); rewrite elem_of_list_In in *; specialize (H1 Hx); lia. }
  destruct (forallb (fun c => 5 <? c)%N r) eqn:E1, (forallb (fun c => c <? 5)%N r) eqn:E2;
    split_and!; intros; try naive_solver.
  exfalso. destruct r as [|z r]; [done|].
  pose proof (proj1 Ha eq_refl z ltac:(mem)). pose proof (proj1 Hb eq_refl z ltac:(mem)). lia.
Qed.
