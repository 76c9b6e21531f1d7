(** Lemmas about strategy parameters. *)
From Coq Require Import String Ascii.
From Verif Require Import Lib Name_Model St_Model Reg_Spec Reg_Model.

Lemma cut_tilde_spec l p v : cut_tilde l = Some (p, v) <-> l = p ++ TILDE :: v /\ TILDE ∉ p.
Proof.
  revert p v. induction l as [|c l IH]; intros p v; cbn [cut_tilde].
  - split; [done|]. intros [E _]. by destruct p.
  - destruct (c =? 126)%N eqn:Ec.
    + apply N.eqb_eq in Ec as ->. split.
      * intros [= <- <-]. split; [done|]. apply not_elem_of_nil.
      * intros [E H]. destruct p as [|a p]; [by injection E as <-|]. injection E as <- _. exfalso. apply H, elem_of_list_here.
    + apply N.eqb_neq in Ec. destruct (cut_tilde l) as [[p' v']|].
      * split.
        -- intros [= <- <-]. destruct (proj1 (IH p' v') eq_refl) as [-> H]. split; [done|]. intros Hi. apply elem_of_cons in Hi as [<-|Hi]; [by apply Ec|done].
        -- intros [E H]. destruct p as [|a p]; [injection E as -> _; done|]. injection E as <- E. apply not_elem_of_cons in H as [_ H].
           by injection (proj2 (IH p v) (conj E H)) as -> ->.
      * split; [done|]. intros [E H]. destruct p as [|a p]; [injection E as -> _; done|]. injection E as <- E. apply not_elem_of_cons in H as [_ H].
        by specialize (proj2 (IH p v) (conj E H)).
Qed.
(** a parameter component and what it assigns *)
Definition assigns (c : comp) (x : list N * list N) : Prop :=
  c.2 = x.1 ++ TILDE :: x.2 /\ x.1 <> [] /\ x.2 <> [] /\ TILDE ∉ x.1.
Lemma parse_params_from_spec l acc m : parse_params_from l acc = Some m <-> exists xs, Forall2 assigns l xs /\ m = rev xs ++ acc.
Proof.
  revert acc. induction l as [|c l IH]; intros acc; cbn [parse_params_from].
  - split; [intros [= <-]; by exists []|]. intros (xs & H & ->). by apply Forall2_nil_inv_l in H as ->.
  - assert (Hx : forall xs, Forall2 assigns (c :: l) xs -> exists p v xs', xs = (p, v) :: xs' /\ cut_tilde c.2 = Some (p, v) /\ p <> [] /\ v <> [] /\ Forall2 assigns l xs').
    { intros xs H. apply Forall2_cons_inv_l in H as ([p v] & xs' & (H1 & H2 & H3 & H4) & H5 & ->). exists p, v, xs'. split; [done|].
      split; [by apply cut_tilde_spec|done]. }
    destruct (cut_tilde c.2) as [[p v]|] eqn:E.
    2:{ split; [done|]. intros (xs & H & _). by destruct (Hx xs H) as (? & ? & ? & ? & ? & _). }
    destruct p as [|a p]; [split; [done|]; intros (xs & H & _); destruct (Hx xs H) as (? & ? & ? & ? & [= <- <-] & ? & _); done|].
    destruct v as [|b v]; [split; [done|]; intros (xs & H & _); destruct (Hx xs H) as (? & ? & ? & ? & [= <- <-] & _ & ? & _); done|].
    rewrite IH. apply cut_tilde_spec in E as [E1 E2]. split.
    + intros (xs & H & ->). exists ((a :: p, b :: v) :: xs). split; [constructor; [done|done]|]. cbn [rev]. by rewrite <-app_assoc.
    + intros (xs & H & ->). destruct (Hx xs H) as (p' & v' & xs' & -> & [= <- <-] & _ & _ & H'). exists xs'. split; [done|].
      cbn [rev]. by rewrite <-app_assoc.
Qed.
Lemma parse_params_spec l m : parse_params l = Some m <-> exists xs, Forall2 assigns l xs /\ m = rev xs.
Proof. unfold parse_params. rewrite parse_params_from_spec. by setoid_rewrite app_nil_r. Qed.
Lemma parse_params_wf l : (exists m, parse_params l = Some m) <-> well_formed l.
Proof.
  split.
  - intros (m & H). apply parse_params_spec in H as (xs & H & _). intros c Hc. apply elem_of_list_lookup in Hc as (i & Hi).
    destruct (Forall2_lookup_l _ _ _ _ _ H Hi) as ([k v] & _ & H1 & H2 & H3 & H4). by exists k, v.
  - intros H. assert (exists xs, Forall2 assigns l xs) as (xs & Hxs).
    { induction l as [|c l IH]; [by exists []|]. destruct IH as (xs & Hxs); [intros c' Hc'; apply H, elem_of_cons; by right|].
      destruct (H c (elem_of_list_here _ _)) as (k & v & H1 & H2 & H3 & H4). by exists ((k, v) :: xs); constructor. }
    exists (rev xs). apply parse_params_spec. by exists xs.
Qed.

Lemma text_eqb_spec a b : text_eqb a b = true <-> a = b.
Proof.
  revert b. induction a as [|x a IH]; intros [|y b]; cbn [text_eqb]; try done.
  rewrite andb_true_iff, N.eqb_eq, IH. split; [by intros [-> ->]|by intros [= -> ->]].
Qed.
Definition no_tilde (key : string) : Prop := TILDE ∉ chars key.
Lemma sets_assigns c x key v : no_tilde key -> assigns c x -> sets c key v <-> x = (chars key, v).
Proof.
  intros Hk (H1 & _ & _ & H4). unfold sets. split.
  - intros E. assert (cut_tilde c.2 = Some x) as E1 by (destruct x; by apply cut_tilde_spec).
    assert (cut_tilde c.2 = Some (chars key, v)) as E2 by (by apply cut_tilde_spec). rewrite E1 in E2. by injection E2.
  - by intros ->.
Qed.
Lemma find_app {A} (f : A -> bool) (l k : list A) : List.find f (l ++ k) = match List.find f l with Some x => Some x | None => List.find f k end.
Proof. induction l as [|a l IH]; cbn; [done|]. by destruct (f a). Qed.
Lemma param_spec l m key : no_tilde key -> parse_params l = Some m ->
  match param key m with Some v => setting l key v | None => unset l key end.
Proof.
  intros Hk H. apply parse_params_spec in H as (xs & H & ->). unfold param.
  revert xs H. induction l as [|c l IH] using rev_ind; intros xs H.
  - apply Forall2_nil_inv_l in H as ->. cbn. intros c v Hc. by apply elem_of_nil in Hc.
  - apply Forall2_app_inv_l in H as (xs1 & xs2 & H1 & H2 & ->). apply Forall2_cons_inv_l in H2 as (x & xs3 & Hx & H3 & ->).
    apply Forall2_nil_inv_l in H3 as ->. rewrite rev_unit. cbn [List.find].
    destruct (text_eqb x.1 (octets key)) eqn:E.
    + apply text_eqb_spec in E. cbn. exists l, c, []. split; [done|]. split; [apply (sets_assigns c x); [done|done|]; destruct x; cbn in *; by subst|].
      intros c' v' Hc'. by apply elem_of_nil in Hc'.
    + assert (forall v, ~ sets c key v) as Hn.
      { intros v Hs. apply (sets_assigns c x _ _ Hk Hx) in Hs as ->. cbn in E. by rewrite (proj2 (text_eqb_spec _ _) eq_refl) in E. }
      specialize (IH xs1 H1). destruct (snd <$> _) as [v|].
      * destruct IH as (b & c' & a & -> & Hs & Ha). exists b, c', (a ++ [c]). split; [by rewrite <-app_assoc|]. split; [done|].
        intros c2 v2 Hc2. apply elem_of_app in Hc2 as [Hc2|Hc2]; [by apply Ha|]. apply elem_of_list_singleton in Hc2 as ->. apply Hn.
      * intros c2 v2 Hc2. apply elem_of_app in Hc2 as [Hc2|Hc2]; [by apply IH|]. apply elem_of_list_singleton in Hc2 as ->. apply Hn.
Qed.
Lemma setting_unique l key v w : setting l key v -> setting l key w -> v = w.
Proof.
  intros (b1 & c1 & a1 & E1 & S1 & N1) (b2 & c2 & a2 & E2 & S2 & N2). rewrite E1 in E2. clear E1 l.
  revert b2 E2. induction b1 as [|x b1 IH]; intros [|y b2] E2; cbn in E2.
  - injection E2 as -> ->. unfold sets in *. rewrite S1 in S2. apply app_inv_head in S2. by injection S2.
  - injection E2 as -> ->. exfalso. apply (N1 c2 w); [apply elem_of_app; right; apply elem_of_list_here|done].
  - injection E2 as -> E2. exfalso. apply (N2 c1 v); [rewrite <-E2; apply elem_of_app; right; apply elem_of_list_here|done].
  - injection E2 as -> E2. by apply (IH b2).
Qed.
Lemma setting_set l key v : setting l key v -> ~ unset l key.
Proof. intros (b & c & a & -> & Hs & _) H. apply (H c v); [apply elem_of_app; right; apply elem_of_list_here|done]. Qed.
Lemma get_signed_spec {T} (conv : list N -> option T) (reads : list N -> T -> Prop) key dflt l m x :
  (forall t y, conv t = Some y <-> reads t y) -> no_tilde key -> parse_params l = Some m ->
  get_signed conv key dflt m = Some x <-> given reads l key dflt x.
Proof.
  intros Hr Hk H. unfold get_signed, given. pose proof (param_spec l m key Hk H) as Hp. destruct (param key m) as [v|].
  - rewrite Hr. split; [intros Hx; right; by exists v|]. intros [[Hu _]|(t & Ht & Hx)]; [by destruct (setting_set l key v)|].
    by rewrite (setting_unique l key v t).
  - split; [intros [= <-]; by left|]. intros [[_ ->]|(t & Ht & _)]; [done|]. by destruct (setting_set l key t).
Qed.

(** * Numbers *)
Lemma digits_value_spec l acc z : digits_value l acc = Some z <->
  exists ds, (forall d, d ∈ ds -> (0 <= d <= 9)%Z) /\ l = digit_text ds /\ z = (acc * 10 ^ Z.of_nat (length ds) + digit_value ds)%Z.
Proof.
  revert acc. induction l as [|c l IH]; intros acc; cbn [digits_value].
  - split.
    + intros [= <-]. exists []. split; [intros d Hd; by apply elem_of_nil in Hd|]. split; [done|]. cbn. lia.
    + intros (ds & _ & E & ->). destruct ds; [|done]. cbn. f_equal. lia.
  - destruct ((48 <=? c)%N && (c <=? 57)%N) eqn:E.
    + apply andb_prop in E as [E1 E2]. apply N.leb_le in E1, E2. rewrite IH. split.
      * intros (ds & H1 & -> & ->). exists (Z.of_N (c - 48) :: ds). split.
        { intros d Hd. apply elem_of_cons in Hd as [->|Hd]; [lia|by apply H1]. }
        split; [unfold digit_text; cbn [List.map]; f_equal; lia|]. cbn [length digit_value]. rewrite Nat2Z.inj_succ, Z.pow_succ_r by lia. lia.
      * intros (ds & H1 & H2 & ->). destruct ds as [|d ds]; [done|]. unfold digit_text in H2. cbn [List.map] in H2. injection H2 as -> ->. exists ds.
        assert (0 <= d <= 9)%Z by (apply H1, elem_of_list_here).
        split; [intros d' Hd'; apply H1, elem_of_cons; by right|]. split; [done|].
        cbn [length digit_value]. rewrite Nat2Z.inj_succ, Z.pow_succ_r by lia.
        replace (Z.of_N (Z.to_N (48 + d) - 48)) with d by lia. lia.
    + split; [done|]. intros (ds & H1 & H2 & _). destruct ds as [|d ds]; [done|]. unfold digit_text in H2. cbn [List.map] in H2. injection H2 as -> _.
      assert (0 <= d <= 9)%Z by (apply H1, elem_of_list_here). apply andb_false_iff in E as [E|E]; apply N.leb_gt in E; lia.
Qed.
Lemma to_digits_spec l z : to_digits l = Some z <-> exists ds, digits ds /\ l = digit_text ds /\ z = digit_value ds.
Proof.
  unfold to_digits, digits. destruct l as [|c l].
  - split; [done|]. intros (ds & [Hne _] & E & _). by destruct ds.
  - rewrite digits_value_spec. split.
    + intros (ds & H1 & H2 & ->). exists ds. split; [split; [by intros ->|done]|]. split; [done|]. lia.
    + intros (ds & [_ H1] & H2 & ->). exists ds. split; [done|]. split; [done|]. lia.
Qed.
Lemma digit_text_head ds c l : digits ds -> digit_text ds = c :: l -> (48 <= c <= 57)%N.
Proof.
  intros [_ H] E. destruct ds as [|d ds]; [done|]. unfold digit_text in E. cbn [List.map] in E. injection E as <- _.
  specialize (H d (elem_of_list_here _ _)). lia.
Qed.
Lemma digit_value_pos ds : digits ds -> (0 <= digit_value ds)%Z.
Proof.
  intros [_ H]. induction ds as [|d ds IH]; cbn [digit_value]; [lia|].
  assert (0 <= d <= 9)%Z by (apply H, elem_of_list_here).
  assert (0 <= digit_value ds)%Z by (apply IH; intros x Hx; apply H, elem_of_cons; by right).
  assert (0 < 10 ^ Z.of_nat (length ds))%Z by (apply Z.pow_pos_nonneg; lia). nia.
Qed.
(** a text without a minus *)
Lemma plus_spec c l z : c <> 45%N -> to_digits (if (c =? 43)%N then l else c :: l) = Some z <->
  exists ds, digits ds /\ (c :: l = digit_text ds \/ c :: l = chars "+" ++ digit_text ds) /\ z = digit_value ds.
Proof.
  intros Hc. rewrite to_digits_spec. change (chars "+") with [43%N]. destruct (c =? 43)%N eqn:E.
  - apply N.eqb_eq in E as ->. split.
    + intros (ds & H1 & -> & ->). exists ds. split; [done|]. split; [by right|done].
    + intros (ds & H1 & [H2|H2] & ->).
      * symmetry in H2. apply digit_text_head in H2; [lia|done].
      * exists ds. injection H2 as ->. done.
  - apply N.eqb_neq in E. split.
    + intros (ds & H1 & H2 & ->). exists ds. split; [done|]. split; [by left|done].
    + intros (ds & H1 & [H2|H2] & ->); [by exists ds|]. injection H2 as -> _. done.
Qed.
Lemma lex_int64_spec t z : lex_int64 t = Some z <-> signed_text t z.
Proof.
  unfold signed_text. change (2 ^ 63)%Z with (INT64_MAX + 1)%Z. unfold lex_int64. destruct t as [|c l].
  - split; [done|]. intros (ds & [Hd _] & _ & [[[H|H] _]|[H _]]); [by destruct ds|done|done].
  - destruct (c =? 45)%N eqn:Ec.
    + apply N.eqb_eq in Ec as ->. assert (forall ds, digits ds -> digit_text ds = 45%N :: l -> False) as Hno.
      { intros ds Hd E. apply digit_text_head in E; [lia|done]. }
      pose proof (to_digits_spec l) as HD. destruct (to_digits l) as [v|].
      * destruct (proj1 (HD v) eq_refl) as (ds & H1 & H2 & H3). pose proof (digit_value_pos ds H1) as Hpos. destruct (Z.leb_spec v (INT64_MAX + 1)).
        -- split.
           ++ intros [= <-]. exists ds. split; [done|]. unfold INT64_MAX in *. split; [lia|]. right. change (chars "-") with [45%N]. subst. done.
           ++ intros (ds' & H1' & Hr & [[[H2'|H2'] _]|[H2' ->]]); [by destruct (Hno ds')|done|]. injection H2' as H2'.
              assert (Some v = Some (digit_value ds')) as [= ->]; [|done]. apply HD. by exists ds'.
        -- split; [done|]. intros (ds' & H1' & Hr & [[[H2'|H2'] _]|[H2' ->]]); [by destruct (Hno ds')|done|]. injection H2' as H2'.
           assert (Some v = Some (digit_value ds')) as [= ->]; [apply HD; by exists ds'|]. lia.
      * split; [done|]. intros (ds' & H1' & Hr & [[[H2'|H2'] _]|[H2' ->]]); [by destruct (Hno ds')|done|]. injection H2' as H2'.
        assert (None = Some (digit_value ds')); [apply HD; by exists ds'|done].
    + apply N.eqb_neq in Ec. pose proof (plus_spec c l) as HD. specialize (fun z => HD z Ec).
      destruct (to_digits _) as [v|].
      * destruct (proj1 (HD v) eq_refl) as (ds & H1 & H2 & H3). pose proof (digit_value_pos ds H1) as Hpos. destruct (Z.leb_spec v INT64_MAX).
        -- split.
           ++ intros [= <-]. exists ds. split; [done|]. unfold INT64_MAX in *. split; [lia|]. left. done.
           ++ intros (ds' & H1' & Hr & [[H2' ->]|[H2' _]]); [|by injection H2' as -> _].
              f_equal. assert (Some v = Some (digit_value ds')) as [= ->]; [|done]. apply HD. by exists ds'.
        -- split; [done|]. intros (ds' & H1' & Hr & [[H2' ->]|[H2' _]]); [|by injection H2' as -> _].
           assert (Some v = Some (digit_value ds')) as [= ->]; [apply HD; by exists ds'|]. unfold INT64_MAX in *. lia.
      * split; [done|]. intros (ds' & H1' & Hr & [[H2' ->]|[H2' _]]); [|by injection H2' as -> _].
        assert (None = Some (digit_value ds')); [apply HD; by exists ds'|done].
Qed.
Lemma lex_uint64_spec t z : (if existsb (N.eqb 45) t then None else lex_uint64 t) = Some z <-> unsigned_text t z.
Proof.
  unfold unsigned_text. change (2 ^ 64)%Z with (UINT64_MAX + 1)%Z.
  assert (forall ds, digits ds -> 45%N ∉ digit_text ds) as Hno.
  { intros ds [_ H] E. unfold digit_text in E. apply elem_of_list_In, in_map_iff in E as (d & E & Hd). apply elem_of_list_In in Hd. specialize (H d Hd). lia. }
  destruct (existsb (N.eqb 45) t) eqn:E.
  - apply existsb_exists in E as (c & Hc & Ec). apply N.eqb_eq in Ec as <-. apply elem_of_list_In in Hc. split; [done|].
    intros (ds & H1 & _ & [H2|H2] & _); subst; [by destruct (Hno ds H1)|]. change (chars "+") with [43%N] in Hc. apply elem_of_cons in Hc as [Hc|Hc]; [done|].
    by destruct (Hno ds H1).
  - unfold lex_uint64. destruct t as [|c l].
    + split; [done|]. intros (ds & [Hd _] & _ & [H|H] & _); [by destruct ds|done].
    + assert (c <> 45%N) as Hc by (intros ->; done).
      pose proof (plus_spec c l) as HD. specialize (fun z => HD z Hc). destruct (to_digits _) as [v|].
      * destruct (proj1 (HD v) eq_refl) as (ds & H1 & H2 & H3). pose proof (digit_value_pos ds H1) as Hpos. destruct (Z.leb_spec v UINT64_MAX).
        -- split.
           ++ intros [= <-]. exists ds. split; [done|]. split; [lia|]. done.
           ++ intros (ds' & H1' & Hr & H2' & ->). f_equal. assert (Some v = Some (digit_value ds')) as [= ->]; [|done]. apply HD. by exists ds'.
        -- split; [done|]. intros (ds' & H1' & Hr & H2' & ->). assert (Some v = Some (digit_value ds')) as [= ->]; [apply HD; by exists ds'|]. lia.
      * split; [done|]. intros (ds' & H1' & Hr & H2' & ->). assert (None = Some (digit_value ds')); [apply HD; by exists ds'|done].
Qed.
Lemma get_unsigned_spec key dflt l m x : no_tilde key -> parse_params l = Some m ->
  get_unsigned key dflt m = Some x <-> given unsigned_text l key dflt x.
Proof.
  intros Hk H. rewrite <-(get_signed_spec (fun t => if existsb (N.eqb 45) t then None else lex_uint64 t) unsigned_text key dflt l m x); [done| |done|done].
  intros t y. apply lex_uint64_spec.
Qed.
