From Verif Require Import Lib Net_Model Net_Spec.

(** ** Bits *)
Fixpoint lexb (a b : list bool) : comparison :=
  match a, b with
  | [], [] => Eq
  | [], _ => Lt
  | _, [] => Gt
  | x :: a, y :: b => match x, y with false, true => Lt | true, false => Gt | _, _ => lexb a b end
  end.
Lemma lexb_refl a : lexb a a = Eq. Proof. induction a as [|[] a IH]; done. Qed.
Lemma lexb_eq a b : lexb a b = Eq <-> a = b.
Proof. split; [|intros ->; apply lexb_refl]. revert b. induction a as [|x a IH]; intros [|y b]; try done. simpl. destruct x, y; try done; intros H; f_equal; by apply IH. Qed.
Lemma lexb_app a b c d : length a = length b -> lexb (a ++ c) (b ++ d) = match lexb a b with Eq => lexb c d | o => o end.
Proof. revert b. induction a as [|x a IH]; intros [|y b]; try done. simpl. intros [= H]. destruct x, y; try done; by apply IH. Qed.
Lemma lexb_anti a b : lexb b a = CompOpp (lexb a b).
Proof. revert b. induction a as [|x a IH]; intros [|y b]; try done. simpl. destruct x, y; try done; by apply IH. Qed.
Definition bytes : list N := map N.of_nat (seq 0 256).
Lemma byte_in b : byte b -> b ∈ bytes.
Proof. intros H. apply elem_of_list_fmap. exists (N.to_nat b). split; [lia|]. apply elem_of_seq. unfold byte in H. lia. Qed.
Lemma all_bytes (P : N -> bool) : forallb P bytes = true -> forall b, byte b -> P b = true.
Proof. rewrite forallb_forall. intros H b Hb. by apply H, elem_of_list_In, byte_in. Qed.
Definition cmp_eqb (a b : comparison) : bool := match a, b with Eq, Eq | Lt, Lt | Gt, Gt => true | _, _ => false end.
Lemma cmp_eqb_eq a b : cmp_eqb a b = true -> a = b. Proof. by destruct a, b. Qed.
Lemma byte_cmp a b : byte a -> byte b -> (a ?= b)%N = lexb (byte_bits a) (byte_bits b).
Proof.
  intros Ha Hb. apply cmp_eqb_eq. revert b Hb. assert (H : forallb (fun b => cmp_eqb (a ?= b)%N (lexb (byte_bits a) (byte_bits b))) bytes = true); [|exact (all_bytes (fun b => cmp_eqb (a ?= b)%N (lexb (byte_bits a) (byte_bits b))) H)].
  revert a Ha. refine (all_bytes (fun a => forallb (fun b => cmp_eqb (a ?= b)%N (lexb (byte_bits a) (byte_bits b))) bytes) _). by vm_compute.
Qed.
Lemma byte_bits_len b : length (byte_bits b) = 8%nat. Proof. done. Qed.
Lemma bits_len l : length (bits l) = (8 * length l)%nat.
Proof. induction l as [|b l IH]; [done|]. change (bits (b :: l)) with (byte_bits b ++ bits l). rewrite app_length, IH, byte_bits_len. simpl. lia. Qed.
Lemma bits_cons b l : bits (b :: l) = byte_bits b ++ bits l. Proof. done. Qed.
Lemma text_cmp_bits a b : Forall byte a -> Forall byte b -> length a = length b -> text_cmp a b = lexb (bits a) (bits b).
Proof.
  intros Ha. revert b. induction Ha as [|x a Hx Ha IH]; intros b Hb; destruct Hb as [|y b Hy Hb]; try done. intros [= E]. simpl text_cmp. rewrite !bits_cons, lexb_app by done. rewrite <-byte_cmp by done.
  destruct (x ?= y)%N; [by apply IH|done|done].
Qed.
Lemma v4_cmp a0 a1 a2 a3 b0 b1 b2 b3 : Forall byte [a0; a1; a2; a3] -> Forall byte [b0; b1; b2; b3] ->
  (to_uint a0 a1 a2 a3 ?= to_uint b0 b1 b2 b3)%N = text_cmp [a0; a1; a2; a3] [b0; b1; b2; b3].
Proof.
  rewrite !Forall_cons. unfold byte, to_uint. change (2 ^ 24)%N with 16777216%N. change (2 ^ 16)%N with 65536%N. change (2 ^ 8)%N with 256%N. intros (Ha0 & Ha1 & Ha2 & Ha3 & _) (Hb0 & Hb1 & Hb2 & Hb3 & _). simpl.
  destruct (N.compare_spec a0 b0) as [<-|H0|H0]; [|apply N.compare_lt_iff; lia|apply N.compare_gt_iff; lia].
  destruct (N.compare_spec a1 b1) as [<-|H1|H1]; [|apply N.compare_lt_iff; lia|apply N.compare_gt_iff; lia].
  destruct (N.compare_spec a2 b2) as [<-|H2|H2]; [|apply N.compare_lt_iff; lia|apply N.compare_gt_iff; lia].
  destruct (N.compare_spec a3 b3) as [<-|H3|H3]; [apply N.compare_eq_iff; lia|apply N.compare_lt_iff; lia|apply N.compare_gt_iff; lia].
Qed.
(** ** Masks *)
Lemma byte_ops a m : byte a -> byte m -> byte (N.land a m) /\ byte (N.lor a (byte_not m)) /\
  byte_bits (N.land a m) = zip_with andb (byte_bits a) (byte_bits m) /\ byte_bits (N.lor a (byte_not m)) = zip_with (fun x y => x || negb y) (byte_bits a) (byte_bits m).
Proof.
  intros Ha Hm. set (P := fun a m => (N.land a m <? 256)%N && (N.lor a (byte_not m) <? 256)%N &&
    bool_decide (byte_bits (N.land a m) = zip_with andb (byte_bits a) (byte_bits m)) && bool_decide (byte_bits (N.lor a (byte_not m)) = zip_with (fun x y => x || negb y) (byte_bits a) (byte_bits m))).
  assert (H : P a m = true).
  { revert m Hm. assert (H : forallb (P a) bytes = true); [|exact (all_bytes (P a) H)]. revert a Ha. refine (all_bytes (fun a => forallb (P a) bytes) _). by vm_compute. }
  unfold P in H. rewrite !andb_true_iff, !N.ltb_lt, !bool_decide_eq_true in H. tauto.
Qed.
Lemma min_bits a m : Forall byte a -> Forall byte m -> length a = length m ->
  Forall byte (min_bytes a m) /\ length (min_bytes a m) = length a /\ bits (min_bytes a m) = zip_with andb (bits a) (bits m).
Proof.
  intros Ha. revert m. induction Ha as [|x a Hx Ha IH]; intros m Hm; destruct Hm as [|y m Hy Hm]; try done; [intros _; split; [constructor|done]|]. intros [= E]. destruct (IH m Hm E) as (I1 & I2 & I3). destruct (byte_ops x y Hx Hy) as (O1 & O2 & O3 & O4).
  change (min_bytes (x :: a) (y :: m)) with (N.land x y :: min_bytes a m). split; [by constructor|]. split; [simpl; by rewrite I2|]. rewrite !bits_cons, I3, O3, zip_with_app by done. done.
Qed.
Lemma max_bits a m : Forall byte a -> Forall byte m -> length a = length m ->
  Forall byte (max_bytes a m) /\ length (max_bytes a m) = length a /\ bits (max_bytes a m) = zip_with (fun x y => x || negb y) (bits a) (bits m).
Proof.
  intros Ha. revert m. induction Ha as [|x a Hx Ha IH]; intros m Hm; destruct Hm as [|y m Hy Hm]; try done; [intros _; split; [constructor|done]|]. intros [= E]. destruct (IH m Hm E) as (I1 & I2 & I3). destruct (byte_ops x y Hx Hy) as (O1 & O2 & O3 & O4).
  change (max_bytes (x :: a) (y :: m)) with (N.lor x (byte_not y) :: max_bytes a m). split; [by constructor|]. split; [simpl; by rewrite I2|]. rewrite !bits_cons, I3, O4, zip_with_app by done. done.
Qed.
Definition mask_ok (size m : nat) : bool :=
  forallb (fun b => (b <? 256)%N) (mask_bytes size m) && (length (mask_bytes size m) =? size)%nat && bool_decide (bits (mask_bytes size m) = repeat true m ++ repeat false (8 * size - m)).
Lemma mask_all size m : (size = 4 \/ size = 16)%nat -> (m <= 8 * size)%nat ->
  Forall byte (mask_bytes size m) /\ length (mask_bytes size m) = size /\ bits (mask_bytes size m) = repeat true m ++ repeat false (8 * size - m).
Proof.
  intros Hs Hm. assert (H : mask_ok size m = true).
  { assert (Hall : forallb (mask_ok size) (seq 0 (S (8 * size))) = true) by (destruct Hs as [-> | ->]; by vm_compute). rewrite forallb_forall in Hall. apply Hall, elem_of_list_In, elem_of_seq. lia. }
  unfold mask_ok in H. rewrite !andb_true_iff, Nat.eqb_eq, bool_decide_eq_true, forallb_forall in H. destruct H as [[H1 H2] H3]. split; [|done]. apply Forall_forall. intros b Hb. apply elem_of_list_In, H1 in Hb. by apply N.ltb_lt.
Qed.
Lemma zip_and l m k : (length l = m + k)%nat -> zip_with andb l (repeat true m ++ repeat false k) = take m l ++ repeat false k.
Proof.
  revert m k. induction l as [|x l IH]; intros [|m] k E; simpl in *; [by subst k|lia|..].
  - destruct k as [|k]; [lia|]. simpl. rewrite andb_false_r. f_equal. injection E as E. exact (IH 0%nat k E).
  - rewrite andb_true_r. f_equal. apply IH. lia.
Qed.
Lemma zip_or l m k : (length l = m + k)%nat -> zip_with (fun x y => x || negb y) l (repeat true m ++ repeat false k) = take m l ++ repeat true k.
Proof.
  revert m k. induction l as [|x l IH]; intros [|m] k E; simpl in *; [by subst k|lia|..].
  - destruct k as [|k]; [lia|]. simpl. rewrite orb_true_r. f_equal. injection E as E. exact (IH 0%nat k E).
  - rewrite orb_false_r. f_equal. apply IH. lia.
Qed.
Lemma low_le x : lexb x (repeat false (length x)) <> Lt.
Proof. induction x as [|[] x IH]; done. Qed.
Lemma high_ge x : lexb (repeat true (length x)) x <> Lt.
Proof. induction x as [|[] x IH]; done. Qed.
Lemma high_eq x : lexb (repeat true (length x)) x = Eq <-> Forall (fun b => b = true) x.
Proof. rewrite lexb_eq. induction x as [|b x IH]; simpl; [split; constructor|]. rewrite Forall_cons, <-IH. split; [by intros [= <- H]|by intros [-> ->]]. Qed.
(** between the least and the greatest with these first bits *)
Lemma lex_range s x m k : (length s = m + k)%nat -> length x = length s ->
  (lexb x (take m s ++ repeat false k) <> Lt /\ lexb (take m s ++ repeat true k) x <> Lt) <-> take m x = take m s.
Proof.
  intros Es Ex. assert (H : x = take m x ++ drop m x) by (by rewrite take_drop). set (y := take m x) in *. set (z := drop m x) in *. assert (Ly : length y = length (take m s)) by (unfold y; rewrite !take_length; lia).
  assert (Lz : length z = k) by (unfold z; rewrite drop_length; lia). rewrite H. rewrite !lexb_app by done. rewrite (lexb_anti y). split.
  - intros [H1 H2]. destruct (lexb y (take m s)) eqn:E; try done. by apply lexb_eq in E.
  - intros ->. rewrite lexb_refl. simpl. rewrite <-Lz. split; [apply low_le|apply high_ge].
Qed.
Lemma lex_last s x m k : (length s = m + k)%nat -> length x = length s -> take m x = take m s ->
  lexb (take m s ++ repeat true k) x = Eq <-> Forall (fun b => b = true) (drop m x).
Proof.
  intros Es Ex E. rewrite <-(take_drop m x) at 1. rewrite E, lexb_app, lexb_refl by done. replace k with (length (drop m x)) by (rewrite drop_length; lia). apply high_eq.
Qed.
(** ** Texts *)
Lemma text_cmp_eq a b : text_cmp a b = Eq <-> a = b.
Proof.
  revert b. induction a as [|x a IH]; intros [|y b]; try done. simpl. destruct (N.compare_spec x y) as [->|H|H]; [rewrite IH; split; [by intros ->|by intros [= ->]]|split; [done|intros [= -> _]; lia]..].
Qed.
Lemma text_eqb_eq a b : text_eqb a b = true <-> a = b.
Proof. unfold text_eqb. rewrite <-text_cmp_eq. by destruct (text_cmp a b). Qed.
Lemma text_cmp_anti a b : text_cmp b a = CompOpp (text_cmp a b).
Proof. revert b. induction a as [|x a IH]; intros [|y b]; try done. simpl. rewrite (N.compare_antisym x y). destruct (x ?= y)%N; [apply IH|done|done]. Qed.
Lemma find_slash_some s t d : find_slash s = Some (t, d) <-> s = t ++ SLASH :: d /\ SLASH ∉ t.
Proof.
  unfold find_slash. assert (H : forall s pre, find_slash_from pre s = Some (t, d) <-> exists t', t = rev pre ++ t' /\ s = t' ++ SLASH :: d /\ SLASH ∉ t').
  { clear s. induction s as [|c s IH]; intros pre; simpl; [split; [done|by intros ([|] & _ & ? & _)]|]. destruct (N.eqb_spec c SLASH) as [->|Hc].
    - split; [intros [= <- <-]; exists []; rewrite app_nil_r; split; [done|]; split; [done|apply not_elem_of_nil]|]. intros ([|c t'] & -> & E & Hn); [by injection E as ->; rewrite app_nil_r|].
      injection E as <- _. destruct Hn. left.
    - rewrite IH. split; intros (t' & E1 & E2 & E3).
      + exists (c :: t'). simpl in E1. rewrite <-app_assoc in E1. split; [done|]. split; [by rewrite E2|]. by apply not_elem_of_cons.
      + destruct t' as [|c' t']; [by injection E2|]. injection E2 as <- E2. exists t'. simpl. rewrite <-app_assoc. apply not_elem_of_cons in E3 as [_ E3]. done. }
  rewrite H. simpl. split; [by intros (t' & -> & E)|intros E; by exists t].
Qed.
Lemma find_slash_none s : find_slash s = None <-> SLASH ∉ s.
Proof.
  destruct (find_slash s) as [[t d]|] eqn:E.
  - apply find_slash_some in E as [-> _]. split; [done|]. intros []. apply elem_of_app. right. left.
  - split; [|done]. intros _ Hin. apply elem_of_list_split in Hin as (t & d & ->).
    revert E. assert (H : forall t, find_slash (t ++ SLASH :: d) <> None); [|by intros E; apply H in E]. clear t. intros t. unfold find_slash. generalize (@nil N) as pre.
    induction t as [|c t IH]; intros pre; simpl; [done|]. destruct (c =? SLASH)%N; [done|apply IH].
Qed.
Lemma decimal_fold s : forall acc, fold_left (fun acc c => acc * 10 + (c - 48))%N s acc = (acc * 10 ^ N.of_nat (length s) + decimal s)%N.
Proof.
  induction s as [|c s IH]; intros acc; [simpl; lia|]. simpl fold_left. rewrite IH. simpl decimal. simpl length. rewrite Nat2N.inj_succ, N.pow_succ_r'. lia.
Qed.
Lemma lex_size_ok s n : (n < 2 ^ 64)%N -> lex_size s = Some n <-> s <> [] /\ decimal s = n.
Proof.
  intros Hn. destruct s as [|c s]; [by split; [|intros [? _]]|]. unfold lex_size. set (l := c :: s). rewrite decimal_fold, N.mul_0_l, N.add_0_l. destruct (N.ltb_spec (decimal l) (2 ^ 64)%N) as [H|H].
  - split; [intros E; injection E as E; split; [done|exact E]|intros [_ E]; f_equal; exact E].
  - split; [done|]. intros [_ E]. lia.
Qed.
Lemma lex_size_some s n : lex_size s = Some n -> s <> [] /\ decimal s = n.
Proof.
  destruct s as [|c s]; [done|]. unfold lex_size. set (l := c :: s). rewrite decimal_fold, N.mul_0_l, N.add_0_l. destruct (decimal l <? 2 ^ 64)%N; [|done]. intros E. injection E as E. split; [done|exact E].
Qed.
