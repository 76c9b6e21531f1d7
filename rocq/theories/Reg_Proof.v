(** Lemmas about strategy names and the registry. *)
From Coq Require Import String Ascii.
From Verif Require Import Lib Name_Model Name_Spec Name_Proof Reg_Spec Reg_Model.

(** * Versions *)
Lemma is_version_spec c : is_version c = true <-> is_ver c.
Proof.
  unfold is_version, is_ver, nni_length, T_VERSION. rewrite andb_true_iff, !orb_true_iff, !Nat.eqb_eq, N.eqb_eq. tauto.
Qed.
Lemma is_version_false c : is_version c = false <-> ~ is_ver c.
Proof. rewrite <-is_version_spec. destruct (is_version c); naive_solver. Qed.
Lemma to_version_from l a : fold_left (fun a b => a * 256 + b)%N l a = (a * 256 ^ N.of_nat (length l) + number l)%N.
Proof.
  revert a. induction l as [|b l IH]; intros a; cbn [fold_left number length].
  - rewrite N.pow_0_r. lia.
  - rewrite IH, Nat2N.inj_succ, N.pow_succ_r'. lia.
Qed.
Lemma to_version_number c : to_version c = number c.2.
Proof. unfold to_version. rewrite to_version_from. lia. Qed.

Lemma parse_from_skip n i j : i <= j -> (forall l c, i < l <= j -> nth_error n l = Some c -> is_version c = false) ->
  parse_from n j = parse_from n i.
Proof.
  intros Hij. induction j as [|j IH]; intros H.
  - by replace i with 0 by lia.
  - destruct (decide (i = S j)) as [->|]; [done|]. cbn [parse_from].
    rewrite IH; [|lia|intros l c ??; apply (H l c); [lia|done]].
    destruct (nth_error n (S j)) as [c|] eqn:E; [|done]. rewrite (H (S j) c); [done|lia|done].
Qed.
Lemma parse_versioned n base v params : versioned n base v params ->
  parse_instance n = Parsed (base ++ [v]) (Some (number v.2)) params.
Proof.
  intros (-> & Hb & Hv & Hp). unfold parse_instance.
  rewrite (parse_from_skip _ (length base)).
  - destruct base as [|b base]; [done|]. cbn [length parse_from].
    replace (nth_error ((b :: base) ++ v :: params) (S (length base))) with (Some v).
    2:{ rewrite nth_error_app2 by (cbn [length]; lia). cbn [length]. by rewrite Nat.sub_diag. }
    rewrite (proj2 (is_version_spec v) Hv), to_version_number. f_equal.
    + replace ((b :: base) ++ v :: params) with (((b :: base) ++ [v]) ++ params) by (by rewrite <-app_assoc).
      rewrite take_app_alt; [done|]. rewrite app_length. cbn [length]. lia.
    + replace ((b :: base) ++ v :: params) with (((b :: base) ++ [v]) ++ params) by (by rewrite <-app_assoc).
      rewrite drop_app_alt; [done|]. rewrite app_length. cbn [length]. lia.
  - rewrite app_length. cbn [length]. lia.
  - intros l c Hl E. apply is_version_false, Hp. rewrite nth_error_app2 in E by lia.
    destruct (l - length base) as [|i] eqn:Ei; [lia|]. cbn in E. apply nth_error_In in E. by apply elem_of_list_In.
Qed.
Lemma parse_unversioned n : unversioned n -> parse_instance n = Parsed n None [].
Proof.
  intros H. unfold parse_instance. rewrite (parse_from_skip _ 0); [done|lia|].
  intros l c Hl E. apply is_version_false, H. destruct n as [|a n]; [by destruct l|]. destruct l as [|l]; [lia|].
  cbn in E. apply nth_error_In in E. by apply elem_of_list_In.
Qed.
Lemma last_version (l : name) : (forall c, c ∈ l -> ~ is_ver c) \/ exists a v b, l = a ++ v :: b /\ is_ver v /\ forall c, c ∈ b -> ~ is_ver c.
Proof.
  induction l as [|c l IH]; [left; intros c Hc; by apply elem_of_nil in Hc|].
  destruct IH as [IH|(a & v & b & -> & Hv & Hb)].
  - destruct (is_version c) eqn:E.
    + right. exists [], c, l. split; [done|]. split; [by apply is_version_spec|done].
    + left. intros c' Hc'. apply elem_of_cons in Hc' as [->|Hc']; [by apply is_version_false|by apply IH].
  - right. exists (c :: a), v, b. done.
Qed.
Lemma name_shape n : unversioned n \/ exists base v params, versioned n base v params.
Proof.
  destruct n as [|a n]; [left; intros c Hc; by apply elem_of_nil in Hc|].
  destruct (last_version n) as [H|(b & v & p & -> & Hv & Hp)]; [by left|].
  right. exists (a :: b), v, p. done.
Qed.

(** * The registry *)
Section registry.
  Context {A : Type}.
  Implicit Types R : registry A.
  Definition ordered R : Prop := StronglySorted (fun x y : name * A => name_cmp x.1 y.1 = Lt) R.
  Lemma lower_bound_split k R before : exists B F, lower_bound k before R = (rev B ++ before, F) /\ R = B ++ F /\
    Forall (fun x => name_cmp x.1 k = Lt) B /\ (forall x F', F = x :: F' -> name_cmp x.1 k <> Lt).
  Proof.
    revert before. induction R as [|x R IH]; intros before; cbn [lower_bound].
    - exists [], []. split; [done|]. split; [done|]. split; [constructor|done].
    - destruct (name_cmp x.1 k) eqn:E.
      + exists [], (x :: R). split; [done|]. split; [done|]. split; [constructor|]. intros y F' [= <- <-]. by rewrite E.
      + destruct (IH (x :: before)) as (B & F & -> & -> & HB & HF). exists (x :: B), F. split; [cbn [rev]; by rewrite <-app_assoc|].
        split; [done|]. split; [by constructor|done].
      + exists [], (x :: R). split; [done|]. split; [done|]. split; [constructor|]. intros y F' [= <- <-]. by rewrite E.
  Qed.
  Lemma ordered_app B F : ordered (B ++ F) -> forall x y, x ∈ B -> y ∈ F -> name_cmp x.1 y.1 = Lt.
  Proof.
    induction B as [|b B IH]; intros HS x y Hx Hy; [by apply elem_of_nil in Hx|].
    apply StronglySorted_inv in HS as [HS Hb]. apply elem_of_cons in Hx as [->|Hx]; [|by apply (IH HS)].
    rewrite Forall_forall in Hb. apply Hb, elem_of_app. by right.
  Qed.
  Lemma ordered_drop B F : ordered (B ++ F) -> ordered F.
  Proof. induction B as [|b B IH]; [done|]. intros HS. apply StronglySorted_inv in HS as [HS _]. by apply IH. Qed.
  Lemma ordered_take B F : ordered (B ++ F) -> ordered B.
  Proof.
    induction B as [|b B IH]; [constructor|]. intros HS. apply StronglySorted_inv in HS as [HS Hb]. constructor; [by apply IH|].
    by apply Forall_app in Hb as [Hb _].
  Qed.
  Lemma ordered_head x F y : ordered (x :: F) -> y ∈ x :: F -> name_cmp y.1 x.1 <> Lt.
  Proof.
    intros HS Hy E. apply StronglySorted_inv in HS as [_ Hb]. apply elem_of_cons in Hy as [->|Hy].
    - by rewrite (cmp_refl name_cmp_ok) in E.
    - rewrite Forall_forall in Hb. specialize (Hb _ Hy). by rewrite (cmp_sym name_cmp_ok), E in Hb.
  Qed.
  Lemma ordered_last B x y : ordered (B ++ [x]) -> y ∈ B ++ [x] -> name_cmp x.1 y.1 <> Lt.
  Proof.
    intros HS Hy E. apply elem_of_app in Hy as [Hy|Hy].
    - pose proof (ordered_app _ _ HS y x Hy (elem_of_list_here _ _)) as E2. by rewrite (cmp_sym name_cmp_ok), E2 in E.
    - apply elem_of_list_singleton in Hy as ->. by rewrite (cmp_refl name_cmp_ok) in E.
  Qed.
  Lemma ordered_key R x y : ordered R -> x ∈ R -> y ∈ R -> x.1 = y.1 -> x = y.
  Proof.
    induction R as [|z R IH]; intros HS Hx Hy E; [by apply elem_of_nil in Hx|].
    apply StronglySorted_inv in HS as [HS Hb]. rewrite Forall_forall in Hb.
    apply elem_of_cons in Hx as [->|Hx]; apply elem_of_cons in Hy as [->|Hy]; [done|..|by apply IH].
    - specialize (Hb _ Hy). by rewrite E, (cmp_refl name_cmp_ok) in Hb.
    - specialize (Hb _ Hx). by rewrite E, (cmp_refl name_cmp_ok) in Hb.
  Qed.
  Lemma ordered_insert B F n (a : A) : ordered (B ++ F) -> Forall (fun x => name_cmp x.1 n = Lt) B -> (forall x, x ∈ F -> name_cmp n x.1 = Lt) ->
    ordered (B ++ (n, a) :: F).
  Proof.
    induction B as [|b B IH]; intros HS HB HF.
    - constructor; [done|]. by apply Forall_forall.
    - apply StronglySorted_inv in HS as [HS Hb]. apply Forall_cons in HB as [Hbn HB]. constructor; [by apply IH|].
      apply Forall_app in Hb as [Hb1 Hb2]. apply Forall_app. split; [done|]. by constructor.
  Qed.

  Lemma le_trans_lt a b c : name_cmp a b <> Gt -> name_cmp b c = Lt -> name_cmp a c = Lt.
  Proof.
    intros H1 H2. destruct (name_cmp a b) eqn:E; [|by eapply name_cmp_ok|done].
    apply name_cmp_ok in E as ->. done.
  Qed.
  Lemma not_lt_le a b : name_cmp a b <> Lt -> name_cmp b a <> Gt.
  Proof. rewrite (cmp_sym name_cmp_ok a b). by destruct (name_cmp a b). Qed.
  (** names between two names under a prefix are under it *)
  Lemma prefix_between p a b c : name_cmp (p ++ a) b <> Gt -> name_cmp b (p ++ c) <> Gt -> p `prefix_of` b.
  Proof.
    revert b. induction p as [|d p IH]; intros b H1 H2; [by apply prefix_nil|].
    destruct b as [|e b]; [done|]. unfold name_cmp in *. cbn [lex_cmp app] in *. destruct (comp_cmp d e) eqn:E; [|exfalso|done].
    - apply comp_cmp_ok in E as ->. rewrite (cmp_refl comp_cmp_ok) in H2. apply prefix_cons. by apply IH.
    - rewrite (cmp_sym comp_cmp_ok d e), E in H2. done.
  Qed.

  Lemma find_versioned R n base v params x : ordered R -> versioned n base v params ->
    find_type R n = Some x <-> first_under R base (base ++ [v]) x.
  Proof.
    intros HS HV. unfold find_type. rewrite (parse_versioned _ _ _ _ HV). cbn [pn_version pn_name].
    replace (take (length (base ++ [v]) - 1) (base ++ [v])) with base.
    2:{ rewrite app_length. cbn [length]. replace (length base + 1 - 1) with (length base) by lia. by rewrite take_app. }
    destruct (lower_bound_split (base ++ [v]) R []) as (B & F & -> & -> & HB & HF). cbn [snd].
    rewrite Forall_forall in HB.
    assert (HF' : forall y, y ∈ F -> name_cmp y.1 (base ++ [v]) <> Lt).
    { intros y Hy. destruct F as [|z F]; [by apply elem_of_nil in Hy|]. intros E.
      specialize (HF z F eq_refl). pose proof (ordered_head z F y (ordered_drop _ _ HS) Hy) as Hz.
      apply HF. eapply le_trans_lt; [by apply not_lt_le, Hz|done]. }
    split.
    - intros E. destruct F as [|z F]; [done|]. destruct (name_prefixb base z.1) eqn:Ep; [|done]. injection E as <-.
      apply name_prefixb_prefix in Ep. split; [apply elem_of_app; right; apply elem_of_list_here|]. split; [done|].
      split; [rewrite <-name_cmp_lt; apply HF', elem_of_list_here|].
      intros y Hy _ Hnl. rewrite <-name_cmp_lt in *. apply elem_of_app in Hy as [Hy|Hy]; [by specialize (HB _ Hy)|].
      by apply (ordered_head z F y (ordered_drop _ _ HS)).
    - intros (Hx & Hp & Hnl & Hmin). rewrite <-name_cmp_lt in Hnl. apply elem_of_app in Hx as [Hx|Hx]; [by specialize (HB _ Hx)|].
      destruct F as [|z F]; [by apply elem_of_nil in Hx|].
      pose proof (ordered_head z F x (ordered_drop _ _ HS) Hx) as Hzx.
      assert (base `prefix_of` z.1) as Hpz.
      { destruct Hp as [c Hc]. apply (prefix_between base [v] z.1 c); [apply not_lt_le, HF', elem_of_list_here|].
        rewrite <-Hc. by apply not_lt_le. }
      rewrite (proj2 (name_prefixb_prefix base z.1) Hpz). f_equal.
      apply (ordered_key (z :: F)); [by eapply ordered_drop|apply elem_of_list_here|done|].
      apply name_cmp_ok. destruct (name_cmp z.1 x.1) eqn:E; [done|exfalso|].
      + apply (Hmin z); [apply elem_of_app; right; apply elem_of_list_here|done| |by apply name_cmp_lt].
        rewrite <-name_cmp_lt. apply HF', elem_of_list_here.
      + apply (cmp_gt_lt name_cmp_ok) in E. done.
  Qed.
  Lemma find_unversioned R n x : ordered R -> Forall (fun y => name_valid y.1) R -> name_valid n -> unversioned n -> n <> [] ->
    find_type R n = Some x <-> last_under R n x.
  Proof.
    intros HS HR Hn HV Hne. unfold find_type. rewrite (parse_unversioned _ HV). cbn [pn_version pn_name].
    destruct (lower_bound_split (name_succ n) R []) as (B & F & -> & -> & HB & HF). cbn [fst]. rewrite app_nil_r.
    rewrite Forall_forall in HB, HR.
    assert (HF' : forall y, y ∈ F -> ~ n `prefix_of` y.1).
    { intros y Hy Hp. destruct F as [|z F]; [by apply elem_of_nil in Hy|].
      specialize (HF z F eq_refl). apply HF.
      eapply le_trans_lt; [apply not_lt_le, (ordered_head z F y (ordered_drop _ _ HS) Hy)|].
      by apply name_prefix_lt_succ. }
    replace (match n with [] => None | _ :: _ => match rev B with [] => None | x0 :: _ => if name_prefixb n x0.1 then Some x0 else None end end)
      with (match rev B with [] => None | x0 :: _ => if name_prefixb n x0.1 then Some x0 else None end) by (by destruct n).
    destruct (rev B) as [|z r] eqn:Er.
    - assert (B = []) as -> by (by apply (f_equal (@rev _)) in Er; rewrite rev_involutive in Er).
      split; [done|]. intros (Hx & Hp & _). by destruct (HF' x).
    - assert (B = rev r ++ [z]) as -> by (apply (f_equal (@rev _)) in Er; rewrite rev_involutive in Er; done). clear Er.
      assert (Hz : z ∈ (rev r ++ [z]) ++ F) by (apply elem_of_app; left; apply elem_of_app; right; apply elem_of_list_here).
      pose proof (ordered_take _ _ HS) as HS1.
      split.
      + destruct (name_prefixb n z.1) eqn:Ep; [|done]. intros [= <-]. apply name_prefixb_prefix in Ep.
        split; [done|]. split; [done|]. intros y Hy Hpy. rewrite <-name_cmp_lt.
        apply elem_of_app in Hy as [Hy|Hy]; [|by destruct (HF' y)]. by apply (ordered_last (rev r)).
      + intros (Hx & Hp & Hmax). apply elem_of_app in Hx as [Hx|Hx]; [|by destruct (HF' x)].
        pose proof (ordered_last _ _ x HS1 Hx) as Hzx.
        assert (n `prefix_of` z.1) as Hpz.
        { apply name_range_prefix; [done|done|by apply HR| |].
          - intros E. apply (cmp_gt_lt name_cmp_ok) in E. apply Hzx. eapply (cmp_trans name_cmp_ok); [exact E|].
            pose proof (name_cmp_prefix _ _ Hp) as Hle. destruct (name_cmp n x.1) eqn:E2; [|done|done].
            exfalso. apply name_cmp_ok in E2. apply Hzx. by rewrite <-E2.
          - apply HB, elem_of_app. right. apply elem_of_list_here. }
        rewrite (proj2 (name_prefixb_prefix n z.1) Hpz). f_equal.
        apply (ordered_key (rev r ++ [z])); [done|apply elem_of_app; right; apply elem_of_list_here|done|].
        apply name_cmp_ok. destruct (name_cmp z.1 x.1) eqn:E; [done|done|exfalso].
        apply (Hmax z Hz Hpz), name_cmp_lt. by apply (cmp_gt_lt name_cmp_ok).
  Qed.
  Lemma find_empty R : find_type R [] = None.
  Proof. done. Qed.

  (** registering *)
  Lemma register_ordered n (a : A) R R' : ordered R -> register_type n a R = Some R' -> ordered R' /\ (forall x, x ∈ R' <-> x = (n, a) \/ x ∈ R) /\
    (forall b, (n, b) ∉ R) /\ exists q v, n = q ++ [v] /\ is_ver v /\ q <> [].
  Proof.
    intros HS. unfold register_type. destruct (last_comp n) as [v|] eqn:El; [|done].
    destruct (is_version v && (1 <? length n)%nat) eqn:Ev; [|done]. apply andb_prop in Ev as [Ev Elen]. apply Nat.ltb_lt in Elen.
    assert (Hq : exists q v, n = q ++ [v] /\ is_ver v /\ q <> []).
    { destruct (exists_last (l := n)) as (q & w & ->); [by destruct n; cbn in Elen; try lia|]. exists q, w. split; [done|].
      unfold last_comp in El. rewrite app_length in El, Elen. cbn [length] in El, Elen. rewrite nth_error_app2 in El by lia.
      replace (length q + 1 - 1 - length q) with 0 in El by lia. injection El as ->. split; [by apply is_version_spec|].
      intros ->. cbn in Elen. lia. }
    destruct (lower_bound_split n R []) as (B & F & -> & -> & HB & HF). rewrite app_nil_r, rev_involutive.
    destruct F as [|x F].
    - intros [= <-]. split; [apply ordered_insert; [done|done|]; intros x Hx; by apply elem_of_nil in Hx|].
      split; [intros x; rewrite !elem_of_app, elem_of_list_singleton, elem_of_nil; tauto|].
      split; [|done]. intros b Hb. rewrite app_nil_r in Hb. rewrite Forall_forall in HB. specialize (HB _ Hb). cbn in HB. by rewrite (cmp_refl name_cmp_ok) in HB.
    - destruct (name_eqb x.1 n) eqn:Ex; [done|]. apply name_eqb_neq in Ex.
      assert (Hx : name_cmp n x.1 = Lt).
      { specialize (HF x F eq_refl). destruct (name_cmp x.1 n) eqn:E; [by apply name_cmp_ok in E|done|]. by apply (cmp_gt_lt name_cmp_ok). }
      assert (HF2 : forall y, y ∈ x :: F -> name_cmp n y.1 = Lt).
      { intros y Hy. apply elem_of_cons in Hy as [->|Hy]; [done|]. apply ordered_drop in HS. apply StronglySorted_inv in HS as [_ Hb].
        rewrite Forall_forall in Hb. eapply (cmp_trans name_cmp_ok); [exact Hx|by apply Hb]. }
      intros [= <-]. split; [by apply ordered_insert|].
      split; [intros y; rewrite !elem_of_app, !elem_of_cons; tauto|]. split; [|done].
      intros b Hb. apply elem_of_app in Hb as [Hb|Hb].
      + rewrite Forall_forall in HB. specialize (HB _ Hb). cbn in HB. by rewrite (cmp_refl name_cmp_ok) in HB.
      + specialize (HF2 _ Hb). cbn in HF2. by rewrite (cmp_refl name_cmp_ok) in HF2.
  Qed.
  Lemma register_fresh n (a : A) R : ordered R -> (exists q v, n = q ++ [v] /\ is_ver v /\ q <> []) -> (forall b, (n, b) ∉ R) -> exists R', register_type n a R = Some R'.
  Proof.
    intros HS (q & v & -> & Hv & Hq) Hf. unfold register_type, last_comp. rewrite app_length. cbn [length].
    rewrite nth_error_app2 by lia. replace (length q + 1 - 1 - length q) with 0 by lia. cbn [nth_error].
    rewrite (proj2 (is_version_spec v) Hv).
    assert ((1 <? length q + 1)%nat = true) as -> by (apply Nat.ltb_lt; destruct q; [done|cbn [length]; lia]). cbn [andb].
    destruct (lower_bound (q ++ [v]) [] R) as [B F] eqn:E.
    destruct (lower_bound_split (q ++ [v]) R []) as (B' & F' & E' & -> & _ & _). rewrite E in E'. injection E' as -> ->.
    destruct F' as [|x F']; [by eexists|]. destruct (name_eqb x.1 (q ++ [v])) eqn:Ex; [|by eexists].
    exfalso. apply name_eqb_eq in Ex. destruct x as [m b]. cbn in Ex. subst m. apply (Hf b), elem_of_app. right. apply elem_of_list_here.
  Qed.
  Lemma ordered_unique R R' : ordered R -> ordered R' -> (forall x, x ∈ R <-> x ∈ R') -> R = R'.
  Proof.
    revert R'. induction R as [|x R IH]; intros R' HS HS' H.
    - destruct R' as [|y R']; [done|]. exfalso. apply (not_elem_of_nil y), H, elem_of_list_here.
    - destruct R' as [|y R']; [exfalso; apply (not_elem_of_nil x), H, elem_of_list_here|].
      assert (x = y) as ->.
      { assert (Hx : x ∈ y :: R') by (apply H, elem_of_list_here). assert (Hy : y ∈ x :: R) by (apply H, elem_of_list_here).
        apply (ordered_key (x :: R)); [done|apply elem_of_list_here|done|].
        apply name_cmp_ok. destruct (name_cmp x.1 y.1) eqn:E; [done|exfalso|exfalso].
        - by apply (ordered_head _ _ _ HS' Hx).
        - apply (cmp_gt_lt name_cmp_ok) in E. by apply (ordered_head _ _ _ HS Hy). }
      f_equal. apply StronglySorted_inv in HS as [HS Hb], HS' as [HS' Hb']. rewrite Forall_forall in Hb, Hb'. apply IH; [done|done|].
      intros z. split; intros Hz.
      + assert (Hz' : z ∈ y :: R') by (apply H, elem_of_cons; by right). apply elem_of_cons in Hz' as [->|Hz']; [|done].
        specialize (Hb _ Hz). by rewrite (cmp_refl name_cmp_ok) in Hb.
      + assert (Hz' : z ∈ y :: R) by (apply H, elem_of_cons; by right). apply elem_of_cons in Hz' as [->|Hz']; [|done].
        specialize (Hb' _ Hz). by rewrite (cmp_refl name_cmp_ok) in Hb'.
  Qed.
End registry.
