(** Facts about the canonical order of names. *)
From Verif Require Import Lib Name_Model.

Lemma bytes_cmp_ok : cmp_ok (lex_cmp N.compare).
Proof. apply lex_cmp_ok, N_cmp_ok. Qed.

Lemma comp_cmp_ok : cmp_ok comp_cmp.
Proof.
  assert (H : cmp_ok (pair_cmp N.compare
                (fun v w : list N => match Nat.compare (length v) (length w) with
                           | Eq => lex_cmp N.compare v w | r => r end))).
  { apply pair_cmp_ok; [apply N_cmp_ok|]. split.
    - intros x y. destruct (Nat.compare (length x) (length y)) eqn:E.
      + apply (cmp_eq bytes_cmp_ok).
      + split; [done|]. intros ->. by rewrite (cmp_refl nat_cmp_ok) in E.
      + split; [done|]. intros ->. by rewrite (cmp_refl nat_cmp_ok) in E.
    - intros x y. rewrite (cmp_sym nat_cmp_ok (length x) (length y)).
      destruct (Nat.compare (length x) (length y)); simpl; try done.
      apply (cmp_sym bytes_cmp_ok).
    - intros x y z.
      destruct (Nat.compare (length x) (length y)) eqn:E1; [|intros _|done].
      + apply (cmp_eq nat_cmp_ok) in E1. rewrite E1.
        destruct (Nat.compare (length y) (length z)); try done.
        apply (cmp_trans bytes_cmp_ok).
      + destruct (Nat.compare (length y) (length z)) eqn:E2; [|intros _|done].
        * apply (cmp_eq nat_cmp_ok) in E2. rewrite <-E2. by rewrite E1.
        * by rewrite (cmp_trans nat_cmp_ok _ _ _ E1 E2). }
  exact H.
Qed.

Lemma name_cmp_ok : cmp_ok name_cmp.
Proof. apply lex_cmp_ok, comp_cmp_ok. Qed.

Lemma comp_eqb_eq c d : comp_eqb c d = true <-> c = d.
Proof.
  unfold comp_eqb. rewrite <-(cmp_eq comp_cmp_ok).
  destruct (comp_cmp c d); naive_solver.
Qed.
Lemma name_eqb_eq n m : name_eqb n m = true <-> n = m.
Proof.
  unfold name_eqb. rewrite <-(cmp_eq name_cmp_ok).
  destruct (name_cmp n m); naive_solver.
Qed.
Lemma name_eqb_refl n : name_eqb n n = true.
Proof. by apply name_eqb_eq. Qed.
Lemma name_eqb_neq n m : name_eqb n m = false <-> n <> m.
Proof. rewrite <-name_eqb_eq. destruct (name_eqb n m); naive_solver. Qed.

Lemma name_prefixb_spec p n : name_prefixb p n = true <-> exists s, n = p ++ s.
Proof.
  revert n. induction p as [|c p IH]; intros n; simpl.
  - split; eauto.
  - destruct n as [|d n]; [naive_solver|].
    rewrite andb_true_iff, comp_eqb_eq, IH. split.
    + intros [-> [s ->]]. eauto.
    + intros [s [= -> ->]]. eauto.
Qed.
Lemma name_prefixb_prefix p n : name_prefixb p n = true <-> p `prefix_of` n.
Proof. apply name_prefixb_spec. Qed.
Lemma name_prefixb_false p n : name_prefixb p n = false <-> ~ p `prefix_of` n.
Proof. rewrite <-name_prefixb_prefix. destruct (name_prefixb p n); naive_solver. Qed.

Lemma name_cmp_nil n : name_cmp [] n <> Gt.
Proof. by destruct n. Qed.

Lemma bytes_succ_length v ov w : bytes_succ v = (ov, w) -> length w = length v.
Proof.
  revert ov w. induction v as [|b v IH]; intros ov w; simpl; [naive_solver|].
  destruct (bytes_succ v) as [ov' w'] eqn:E. specialize (IH _ _ eq_refl).
  repeat case_match; naive_solver.
Qed.

Lemma bytes_succ_lt v w : bytes_succ v = (false, w) -> lex_cmp N.compare v w = Lt.
Proof.
  revert w. induction v as [|b v IH]; intros w; simpl; [naive_solver|].
  destruct (bytes_succ v) as [[] w'] eqn:E.
  - case_match; [naive_solver|]. intros [= <-].
    destruct (N.compare b (b + 1)) eqn:E'; try done.
    + apply N.compare_eq_iff in E'. lia.
    + rewrite N.compare_gt_iff in E'. lia.
  - intros [= <-]. rewrite N.compare_refl. auto.
Qed.

(** on overflow the string was the greatest of its length *)
Lemma bytes_succ_overflow v w x :
  bytes_succ v = (true, w) -> length x = length v ->
  Forall (fun b => (b < 256)%N) x -> lex_cmp N.compare v x <> Lt.
Proof.
  revert w x. induction v as [|b v IH]; intros w x; simpl.
  - intros _. by destruct x.
  - destruct (bytes_succ v) as [[] w'] eqn:E; [|naive_solver].
    destruct (b =? 255)%N eqn:Eb; [|naive_solver].
    intros [= <-] Hlen. destruct x as [|y x]; [done|].
    intros [Hy Hx]%Forall_cons; cbv beta in Hy. apply N.eqb_eq in Eb as ->. simpl.
    destruct (N.compare 255 y) eqn:E'.
    + eapply IH; eauto.
    + rewrite N.compare_lt_iff in E'. lia.
    + done.
Qed.

Lemma bytes_succ_overflow_zero v w : bytes_succ v = (true, w) -> w = replicate (length v) 0%N.
Proof.
  revert w. induction v as [|b v IH]; intros w; simpl; [naive_solver|].
  destruct (bytes_succ v) as [[] w'] eqn:E; [|naive_solver].
  case_match; [|naive_solver]. intros [= <-]. f_equal. by apply IH.
Qed.

Lemma bytes_cmp_zero v : lex_cmp N.compare v (replicate (length v) 0%N) <> Lt.
Proof.
  induction v as [|b v IH]; simpl; [done|].
  destruct (N.compare b 0) eqn:E; [done| |done].
  rewrite N.compare_lt_iff in E. lia.
Qed.

Lemma bytes_succ_no_gap v w x :
  bytes_succ v = (false, w) -> length x = length v ->
  Forall (fun b => (b < 256)%N) x ->
  lex_cmp N.compare v x = Lt -> lex_cmp N.compare x w <> Lt.
Proof.
  revert w x. induction v as [|b v IH]; intros w x; simpl; [naive_solver|].
  destruct (bytes_succ v) as [[] w'] eqn:E.
  - destruct (b =? 255)%N eqn:Eb; [naive_solver|]. intros [= <-] Hlen.
    destruct x as [|y x]; [done|]. intros [Hy Hx]%Forall_cons; cbv beta in Hy. simpl.
    destruct (N.compare b y) eqn:E1; [|intros _|done].
    + intros Hlt. exfalso. eapply (bytes_succ_overflow _ _ x); eauto.
    + rewrite N.compare_lt_iff in E1.
      destruct (N.compare y (b + 1)) eqn:E2.
      * apply N.compare_eq_iff in E2 as ->.
        rewrite (bytes_succ_overflow_zero _ _ E).
        simpl in Hlen. injection Hlen as Hlen. rewrite <-Hlen. apply bytes_cmp_zero.
      * rewrite N.compare_lt_iff in E2. lia.
      * done.
  - intros [= <-] Hlen. destruct x as [|y x]; [done|].
    intros [Hy Hx]%Forall_cons; cbv beta in Hy. simpl.
    destruct (N.compare b y) eqn:E1; [|intros _|done].
    + apply N.compare_eq_iff in E1 as ->. rewrite N.compare_refl. intros.
      eapply IH; eauto.
    + rewrite N.compare_lt_iff in E1.
      destruct (N.compare y b) eqn:E2; try done.
      * apply N.compare_eq_iff in E2. lia.
      * rewrite N.compare_lt_iff in E2. lia.
Qed.

Lemma comp_succ_lt c : comp_cmp c (comp_succ c) = Lt.
Proof.
  destruct c as [t v]. unfold comp_succ, comp_cmp; simpl.
  destruct (bytes_succ v) as [ov w] eqn:E.
  pose proof (bytes_succ_length _ _ _ E) as Hlen.
  destruct ov; simpl.
  - destruct (t =? T_IMPLICIT_DIGEST)%N eqn:E1.
    { apply N.eqb_eq in E1 as ->. done. }
    destruct (t =? T_PARAMS_DIGEST)%N eqn:E2.
    { apply N.eqb_eq in E2 as ->. done. }
    simpl. rewrite N.compare_refl.
    assert ((length v ?= length (w ++ [0%N])) = Lt) as ->; [|done].
    apply Nat.compare_lt_iff. rewrite app_length; simpl. lia.
  - rewrite N.compare_refl, Hlen, Nat.compare_refl. by apply bytes_succ_lt.
Qed.

Lemma bytes_cmp_zero' x n : length x = n ->
  lex_cmp N.compare x (replicate n 0%N) <> Lt.
Proof. intros <-. apply bytes_cmp_zero. Qed.

(** No valid component lies strictly between [c] and its successor. *)
Lemma comp_succ_no_gap c d :
  comp_valid c -> comp_valid d -> comp_cmp c d = Lt -> comp_cmp d (comp_succ c) <> Lt.
Proof.
  destruct c as [t v], d as [t' v'].
  intros (Ht & Hv & Hd1 & Hd2) (Ht' & Hv' & Hd1' & Hd2'). simpl in *.
  unfold comp_cmp, comp_succ; simpl.
  destruct (bytes_succ v) as [ov w] eqn:E.
  pose proof (bytes_succ_length _ _ _ E) as Hlen.
  unfold T_IMPLICIT_DIGEST, T_PARAMS_DIGEST in *.
  destruct (N.compare t t') eqn:E1; [|intros _|done].
  - apply N.compare_eq_iff in E1 as <-.
    destruct (Nat.compare (length v) (length v')) eqn:E2; [|intros _|done].
    + (* equal lengths *)
      apply Nat.compare_eq_iff in E2. intros Hlt.
      destruct ov; simpl.
      * exfalso. by eapply (bytes_succ_overflow v w v').
      * rewrite N.compare_refl.
        assert (length v' = length w) as -> by lia. rewrite Nat.compare_refl.
        eapply bytes_succ_no_gap; eauto.
    + (* v' longer *)
      apply Nat.compare_lt_iff in E2.
      destruct ov; simpl.
      * destruct (t =? 1)%N eqn:E3; [apply N.eqb_eq in E3; naive_solver lia|].
        destruct (t =? 2)%N eqn:E4; [apply N.eqb_eq in E4; naive_solver lia|].
        simpl. rewrite N.compare_refl.
        destruct (Nat.compare (length v') (length (w ++ [0%N]))) eqn:E5; [| |done].
        -- apply Nat.compare_eq_iff in E5. rewrite app_length in E5; simpl in E5.
           rewrite (bytes_succ_overflow_zero _ _ E).
           replace [0%N] with (replicate 1 0%N) by done.
           rewrite <-replicate_add. apply bytes_cmp_zero'. lia.
        -- apply Nat.compare_lt_iff in E5. rewrite app_length in E5; simpl in E5. lia.
      * rewrite N.compare_refl.
        destruct (Nat.compare (length v') (length w)) eqn:E5; [| |done].
        -- apply Nat.compare_eq_iff in E5. lia.
        -- apply Nat.compare_lt_iff in E5. lia.
  - rewrite N.compare_lt_iff in E1.
    destruct ov; simpl.
    + destruct (t =? 1)%N eqn:E3.
      { apply N.eqb_eq in E3 as ->. simpl.
        destruct (N.compare t' 2) eqn:E4; [| |done].
        - apply N.compare_eq_iff in E4 as ->. rewrite (Hd2' eq_refl).
          simpl. by apply (bytes_cmp_zero' v' 32), Hd2'.
        - rewrite N.compare_lt_iff in E4. lia. }
      destruct (t =? 2)%N eqn:E4.
      { apply N.eqb_eq in E4 as ->. simpl.
        destruct (N.compare t' 3) eqn:E5; [| |done].
        - destruct v'; done.
        - rewrite N.compare_lt_iff in E5. lia. }
      simpl. assert ((t' ?= t)%N = Gt) as -> by (apply N.compare_gt_iff; lia). done.
    + assert ((t' ?= t)%N = Gt) as -> by (apply N.compare_gt_iff; lia). done.
Qed.

Lemma name_succ_snoc p c : name_succ (p ++ [c]) = p ++ [comp_succ c].
Proof. unfold name_succ. by rewrite rev_unit, rev_involutive. Qed.

Lemma name_cmp_app p l k : name_cmp (p ++ l) (p ++ k) = name_cmp l k.
Proof. apply lex_cmp_app, comp_cmp_ok. Qed.

Lemma name_cmp_prefix p n : p `prefix_of` n -> name_cmp p n <> Gt.
Proof.
  intros [s ->]. replace p with (p ++ []) at 1 by apply app_nil_r.
  rewrite name_cmp_app. apply name_cmp_nil.
Qed.

Lemma name_prefix_lt_succ p n : p <> [] -> p `prefix_of` n -> name_cmp n (name_succ p) = Lt.
Proof.
  intros Hp [s ->]. destruct (exists_last Hp) as (q & c & ->).
  rewrite name_succ_snoc, <-app_assoc, name_cmp_app. unfold name_cmp; simpl.
  by rewrite comp_succ_lt.
Qed.

(** The names having [p] as a prefix are exactly those in [p, succ p). *)
Lemma name_range_prefix p n :
  p <> [] -> name_valid p -> name_valid n ->
  name_cmp p n <> Gt -> name_cmp n (name_succ p) = Lt -> p `prefix_of` n.
Proof.
  intros Hp Hvp Hvn. destruct (exists_last Hp) as (q & c & ->).
  rewrite name_succ_snoc. apply Forall_app in Hvp as [_ Hc].
  rewrite Forall_singleton in Hc. clear Hp. unfold name_cmp. revert n Hvn.
  induction q as [|d q IH]; intros n Hvn; simpl.
  - destruct n as [|e n]; [done|]. apply Forall_cons in Hvn as [He Hvn].
    simpl. destruct (comp_cmp c e) eqn:E1; [intros _|intros _|done].
    + apply comp_cmp_ok in E1 as ->. intros _. exists n. done.
    + intros Hlt. exfalso.
      pose proof (comp_succ_no_gap c e Hc He E1) as Hng.
      destruct (comp_cmp e (comp_succ c)) eqn:E2; try done.
      by destruct n.
  - destruct n as [|e n]; [done|]. apply Forall_cons in Hvn as [He Hvn].
    simpl. destruct (comp_cmp d e) eqn:E1; [|intros _|done].
    + apply comp_cmp_ok in E1 as ->. rewrite (cmp_refl comp_cmp_ok).
      intros H1 H2. apply prefix_cons. by apply IH.
    + rewrite (cmp_sym comp_cmp_ok d e), E1. done.
Qed.

(** The computed order is the specified one. *)
From Verif Require Import Name_Spec.

Lemma bytes_cmp_lt v w : length v = length w -> lex_cmp N.compare v w = Lt <-> bytes_lt v w.
Proof.
  revert w. induction v as [|a v IH]; intros [|b w]; simpl; try done.
  { split; [done|inversion 1]. }
  intros [= Hlen]. destruct (N.compare a b) eqn:E.
  - apply N.compare_eq_iff in E as ->. rewrite IH by done. split.
    + by constructor.
    + inversion 1; subst; [lia|done].
  - rewrite N.compare_lt_iff in E. split; [by constructor|done].
  - rewrite N.compare_gt_iff in E. split; [done|]. inversion 1; subst; lia.
Qed.

Lemma comp_cmp_lt c d : comp_cmp c d = Lt <-> comp_lt c d.
Proof.
  unfold comp_cmp, comp_lt. destruct (N.compare c.1 d.1) eqn:E.
  - apply N.compare_eq_iff in E. rewrite E.
    destruct (Nat.compare (length c.2) (length d.2)) eqn:E'.
    + apply Nat.compare_eq_iff in E'. rewrite (bytes_cmp_lt _ _ E').
      split; [naive_solver|]. intros [?|[_ [?|[_ ?]]]]; [lia|lia|done].
    + rewrite Nat.compare_lt_iff in E'. split; [naive_solver|done].
    + rewrite Nat.compare_gt_iff in E'. split; [done|].
      intros [?|[_ [?|[? _]]]]; lia.
  - rewrite N.compare_lt_iff in E. split; [naive_solver|done].
  - rewrite N.compare_gt_iff in E. split; [done|]. intros [?|[? _]]; lia.
Qed.

Lemma name_cmp_lt n m : name_cmp n m = Lt <-> name_lt n m.
Proof.
  unfold name_cmp. revert m. induction n as [|c n IH]; intros [|d m]; simpl.
  - split; [done|inversion 1].
  - split; [constructor|done].
  - split; [done|inversion 1].
  - destruct (comp_cmp c d) eqn:E.
    + apply comp_cmp_ok in E as ->. rewrite IH. split; [by constructor|].
      inversion 1; subst; [|done].
      match goal with H : comp_lt d d |- _ => apply comp_cmp_lt in H; by rewrite (cmp_refl comp_cmp_ok) in H end.
    + split; [|done]. intros _. apply name_lt_here. by apply comp_cmp_lt.
    + split; [done|]. inversion 1; subst.
      * match goal with H : comp_lt _ _ |- _ => apply comp_cmp_lt in H; congruence end.
      * by rewrite (cmp_refl comp_cmp_ok) in E.
Qed.
