From Coq Require Import String Ascii.
From stdpp Require Import gmap strings.
From Verif Require Import Lib Nc_Model Nc_Spec.
Open Scope list_scope.
Set Default Proof Using "Type".

Lemma str_app_assoc (a b c : string) : (a +:+ b) +:+ c = a +:+ (b +:+ c).
Proof. induction a as [|x a IH]; [done|]. exact (f_equal (String x) IH). Qed.
Lemma str_app_cons x (a b : string) : String x a +:+ b = String x (a +:+ b).
Proof. done. Qed.

Lemma digit_of_spec c d : digit_of c = Some d <-> (d < 10)%N /\ c = ascii_of_N (48 + d).
Proof.
  unfold digit_of. split.
  - destruct ((48 <=? N_of_ascii c)%N && (N_of_ascii c <=? 57)%N) eqn:E; [|done]. intros [= H]. apply andb_true_iff in E as [H1%N.leb_le H2%N.leb_le].
    split; [lia|]. replace (48 + d)%N with (N_of_ascii c) by lia. by rewrite ascii_N_embedding.
  - intros [H ->]. rewrite N_ascii_embedding by lia.
    replace ((48 <=? 48 + d)%N && (48 + d <=? 57)%N) with true. { f_equal. lia. }
    symmetry. apply andb_true_iff. split; apply N.leb_le; lia.
Qed.
Lemma digits_acc_app a s c : digits_acc a (s +:+ String c "") = match digits_acc a s with Some m => match digit_of c with Some d => Some (10 * m + d)%N | None => None end | None => None end.
Proof.
  revert a. induction s as [|x s IH]; intros a.
  - change ("" +:+ String c "") with (String c ""). cbn [digits_acc]. by destruct (digit_of c).
  - rewrite str_app_cons. cbn [digits_acc]. destruct (digit_of x); [|done]. apply IH.
Qed.
Lemma decimal_nonempty s n : decimal s n -> s <> EmptyString.
Proof. destruct 1; [done|]. by destruct s. Qed.
Lemma decimal_acc s n : decimal s n -> digits_acc 0 s = Some n.
Proof.
  induction 1 as [d Hd|s n d H IH Hd].
  - cbn [digits_acc]. rewrite (proj2 (digit_of_spec _ d)) by done. f_equal; lia.
  - rewrite digits_acc_app, IH, (proj2 (digit_of_spec _ d)) by done. done.
Qed.
Lemma acc_decimal s : forall s0 a n, decimal s0 a -> digits_acc a s = Some n -> decimal (s0 +:+ s) n.
Proof.
  induction s as [|c s IH]; intros s0 a n H E.
  - cbn in E. simplify_eq. assert (s0 +:+ "" = s0) as ->; [|done]. clear. induction s0 as [|x s0 IH]; [done|]. exact (f_equal (String x) IH).
  - cbn [digits_acc] in E. destruct (digit_of c) as [d|] eqn:D; [|done]. apply digit_of_spec in D as [D ->].
    change (s0 +:+ String (ascii_of_N (48 + d)) s) with (s0 +:+ (String (ascii_of_N (48 + d)) "" +:+ s)). rewrite <- str_app_assoc.
    eapply IH; [|exact E]. by constructor.
Qed.
Lemma lex_digits_spec s n : lex_digits s = Some n <-> decimal s n.
Proof.
  split.
  - destruct s as [|c s]; [done|]. unfold lex_digits. cbn [digits_acc]. destruct (digit_of c) as [d|] eqn:D; [|done]. apply digit_of_spec in D as [D ->].
    intros E. apply (acc_decimal s (String (ascii_of_N (48 + d)) "") d n); [by constructor|]. by replace d with (10 * 0 + d)%N at 1 by lia.
  - intros H. pose proof (decimal_nonempty _ _ H). unfold lex_digits. destruct s; [done|]. by apply decimal_acc.
Qed.
Lemma decimal_head c s n : decimal (String c s) n -> c <> "-"%char /\ c <> "+"%char.
Proof.
  intros H%decimal_acc. cbn [digits_acc] in H. split; intros ->; cbn in H; discriminate.
Qed.
Lemma lex_sign_spec s sg n : signed s sg n <-> exists t, lex_sign s = (sg, t) /\ lex_digits t = Some n.
Proof.
  split.
  - destruct 1 as [s n H|s n H|s n H]; [|exists s; by rewrite lex_digits_spec..].
    exists s. rewrite lex_digits_spec. split; [|done]. destruct s as [|c s]; [done|]. apply decimal_head in H as [H1 H2]. cbn. destruct (ascii_dec c "-"); [done|]. by destruct (ascii_dec c "+").
  - intros (t & E & H%lex_digits_spec). destruct s as [|c s]; cbn in E.
    + simplify_eq. by constructor.
    + destruct (ascii_dec c "-") as [->|]; [simplify_eq; by constructor|]. destruct (ascii_dec c "+") as [->|]; simplify_eq; by constructor.
Qed.
Lemma lex_fun s sg n sg' n' : signed s sg n -> signed s sg' n' -> sg = sg' /\ n = n'.
Proof. rewrite !lex_sign_spec. intros (t & E & H) (t' & E' & H'). rewrite E in E'. injection E' as -> ->. rewrite H in H'. by injection H' as ->. Qed.
Lemma lex_none s : (exists sg n, signed s sg n) \/ (forall sg n, ~ signed s sg n).
Proof.
  destruct (lex_sign s) as [sg t] eqn:E. destruct (lex_digits t) as [n|] eqn:D.
  - left. exists sg, n. apply lex_sign_spec. eauto.
  - right. intros sg' n (t' & E' & D')%lex_sign_spec. rewrite E in E'. injection E' as -> ->. congruence.
Qed.
Lemma lex_i64_signed s sg n : signed s sg n -> lex_i64 s = if sg then if (n <=? 2 ^ 63)%N then Some (- Z.of_N n)%Z else None else if (n <? 2 ^ 63)%N then Some (Z.of_N n) else None.
Proof. intros (t & E & D)%lex_sign_spec. unfold lex_i64. by rewrite E, D. Qed.
Lemma lex_u64_signed s sg n : signed s sg n -> lex_u64 s = if (n <? 2 ^ 64)%N then Some (if sg then (2 ^ 64 - n) mod 2 ^ 64 else n)%N else None.
Proof. intros (t & E & D)%lex_sign_spec. unfold lex_u64. by rewrite E, D. Qed.
Lemma lex_unsigned s : (forall sg n, ~ signed s sg n) -> lex_i64 s = None /\ lex_u64 s = None.
Proof.
  intros H. unfold lex_i64, lex_u64. destruct (lex_sign s) as [sg t] eqn:E. destruct (lex_digits t) as [n|] eqn:D; [|done].
  exfalso. apply (H sg n), lex_sign_spec. eauto.
Qed.

Lemma existsb_eqb_in s l : existsb (String.eqb s) l = true <-> s ∈ l.
Proof.
  rewrite existsb_exists. split.
  - intros (x & H & E%String.eqb_eq). subst x. by apply elem_of_list_In.
  - intros H. exists s. split; [by apply elem_of_list_In|]. apply String.eqb_refl.
Qed.

Section nfdc.
Context {X : Type} (ext : vtype -> string -> option X).
Lemma means_value t s v : means ext t s v -> parse_value ext t s = Some v.
Proof.
  destruct 1; cbn [parse_value].
  - unfold parse_boolean. by rewrite (proj2 (existsb_eqb_in _ _)).
  - unfold parse_boolean. rewrite (proj2 (existsb_eqb_in s ["off"; "false"; "disabled"; "no"; "0"]%string)) by done.
    destruct (existsb _ _) eqn:E; [|done]. apply existsb_eqb_in in E.
    exfalso. rewrite !elem_of_cons in *. rewrite elem_of_nil in *. naive_solver.
  - rewrite (lex_i64_signed _ _ _ H). destruct (N.ltb_spec n (2 ^ 63)); [|lia]. destruct (Z.ltb_spec (Z.of_N n) 0); [lia|]. by rewrite N2Z.id.
  - by rewrite (lex_i64_signed _ _ _ H).
  - done.
  - done.
  - done.
  - destruct H as [->|[->| ->]]; cbn [parse_value]; by rewrite H0.
  - rewrite (lex_u64_signed _ _ _ H). destruct (N.ltb_spec n (2 ^ 64)); [done|lia].
  - rewrite (lex_u64_signed _ _ _ H). destruct (N.ltb_spec n (2 ^ 64)); [|lia]. rewrite N.mod_small by lia. done.
  - by rewrite (lex_u64_signed _ _ _ H).
  - assert (lex_u64 s = None) as ->; [|by rewrite H0]. destruct (lex_none s) as [(sg & n & Hn)|Hn].
    + rewrite (lex_u64_signed _ _ _ Hn). specialize (H _ _ Hn). destruct (N.ltb_spec n (2 ^ 64)); [lia|done].
    + by apply lex_unsigned.
  - done.
  - done.
Qed.
Lemma value_means t s v : parse_value ext t s = Some v -> means ext t s v.
Proof.
  destruct t; cbn [parse_value]; try done.
  - unfold parse_boolean. destruct (existsb _ _) eqn:E; [intros [= <-]; apply existsb_eqb_in in E; by constructor|].
    destruct (existsb _ ["off"; "false"; "disabled"; "no"; "0"]%string) eqn:E'; [|done]. intros [= <-]. apply existsb_eqb_in in E'. by constructor.
  - destruct (lex_none s) as [(sg & n & Hn)|Hn]; [|by rewrite (proj1 (lex_unsigned _ Hn))]. rewrite (lex_i64_signed _ _ _ Hn). destruct sg.
    + destruct (n <=? 2 ^ 63)%N; [|done]. destruct (Z.ltb_spec (- Z.of_N n) 0); [done|]. assert (n = 0%N) as -> by lia. intros [= <-]. by constructor.
    + destruct (N.ltb_spec n (2 ^ 63)); [|done]. destruct (Z.ltb_spec (Z.of_N n) 0); [done|]. rewrite N2Z.id. intros [= <-]. by constructor.
  - intros [= <-]. constructor.
  - destruct (String.eqb_spec s "xml") as [->|]; [intros [= <-]; constructor|]. destruct (String.eqb_spec s "text") as [->|]; [intros [= <-]; constructor|done].
  - destruct (ext TName s) eqn:E; [|done]. intros [= <-]. constructor; tauto.
  - destruct (ext TUri s) eqn:E; [|done]. intros [= <-]. constructor; tauto.
  - destruct (lex_none s) as [(sg & n & Hn)|Hn].
    + rewrite (lex_u64_signed _ _ _ Hn). destruct (N.ltb_spec n (2 ^ 64)).
      * destruct sg; [|intros [= <-]; by constructor]. destruct (N.eq_dec n 0) as [->|].
        -- intros [= <-]. by apply m_face_id_minus_zero.
        -- intros E. assert (v = VUint (2 ^ 64 - n)) as ->. { injection E as <-. rewrite N.mod_small by lia. done. } apply m_face_id_minus; [done|lia].
      * destruct (ext TUri s) eqn:E; [|done]. intros [= <-]. apply m_face_uri; [|done]. intros sg' n' Hn'. destruct (lex_fun _ _ _ _ _ Hn Hn') as [-> ->]. done.
    + rewrite (proj2 (lex_unsigned _ Hn)). destruct (ext TUri s) eqn:E; [|done]. intros [= <-]. apply m_face_uri; [|done]. intros sg' n' Hn'. by destruct (Hn _ _ Hn').
  - destruct (String.eqb_spec s "persistent") as [->|]; [intros [= <-]; constructor|]. destruct (String.eqb_spec s "permanent") as [->|]; [intros [= <-]; constructor|done].
  - destruct (ext TOrigin s) eqn:E; [|done]. intros [= <-]. constructor; tauto.
Qed.
Lemma parse_value_means t s v : parse_value ext t s = Some v <-> means ext t s v.
Proof. split; [apply value_means|apply means_value]. Qed.

(** ** Arguments *)
Definition add_all (ca : gmap string (val (X:=X))) (asg : list (string * val (X:=X))) := foldl (fun m '(k, v) => <[k := v]> m) ca asg.
Lemma try_val d t pos p x pos' : try_positional ext d t pos = PVal p x pos' <->
  exists sk ty r, pos = sk ++ p :: pos' /\ skipped ext (d_args d) t sk /\ d_args d !! p = Some (Arg ty r) /\ ty <> TAny /\ means ext ty t x.
Proof.
  split.
  - induction pos as [|q pos IH]; cbn [try_positional]; [done|]. destruct (d_args d !! q) as [[ty r]|] eqn:E; [|done]. cbn [a_type a_required].
    destruct (decide (ty = TAny)); [done|]. destruct (parse_value ext ty t) as [v|] eqn:V.
    + intros [= -> -> ->]. exists [], ty, r. repeat split; try done; [constructor|]. by apply parse_value_means.
    + destruct r; [done|]. intros H. destruct (IH H) as (sk & ty' & r' & -> & Hs & H'). exists (q :: sk), ty', r'. repeat split; try tauto.
      constructor; [|done]. exists (Arg ty false). repeat split; try done. intros v' Hv%parse_value_means. cbn in Hv. congruence.
  - intros (sk & ty & r & -> & Hs & E & Hty & Hm). induction Hs as [|q sk (a & Ea & Ha & Hr & Hv) Hs IH]; cbn [try_positional app].
    + rewrite E. cbn [a_type]. destruct (decide (ty = TAny)); [done|]. by rewrite (proj2 (parse_value_means _ _ _) Hm).
    + rewrite Ea. destruct (decide (a_type a = TAny)); [done|]. destruct (parse_value ext (a_type a) t) as [v|] eqn:V.
      * apply parse_value_means in V. by destruct (Hv _ V).
      * by rewrite Hr.
Qed.
Lemma try_any d t pos p : try_positional ext d t pos = PAny p <->
  exists sk r pos', pos = sk ++ p :: pos' /\ skipped ext (d_args d) t sk /\ d_args d !! p = Some (Arg TAny r).
Proof.
  split.
  - induction pos as [|q pos IH]; cbn [try_positional]; [done|]. destruct (d_args d !! q) as [[ty r]|] eqn:E; [|done]. cbn [a_type a_required].
    destruct (decide (ty = TAny)) as [->|].
    + intros [= ->]. exists [], r, pos. repeat split; try done. constructor.
    + destruct (parse_value ext ty t) as [v|] eqn:V; [done|]. destruct r; [done|]. intros H. destruct (IH H) as (sk & r' & pos' & -> & Hs & H'). exists (q :: sk), r', pos'. repeat split; try tauto.
      constructor; [|done]. exists (Arg ty false). repeat split; try done. intros v' Hv%parse_value_means. cbn in Hv. congruence.
  - intros (sk & r & pos' & -> & Hs & E). induction Hs as [|q sk (a & Ea & Ha & Hr & Hv) Hs IH]; cbn [try_positional app].
    + rewrite E. cbn [a_type]. by destruct (decide (TAny = TAny)).
    + rewrite Ea. destruct (decide (a_type a = TAny)); [done|]. destruct (parse_value ext (a_type a) t) as [v|] eqn:V.
      * apply parse_value_means in V. by destruct (Hv _ V).
      * by rewrite Hr.
Qed.
Definition named d t := match d_args d !! t with Some a => if decide (a_type a = TAny) then None else Some a | None => None end.
Lemma named_none d t : named d t = None <-> ~ is_name (d_args d) t.
Proof.
  unfold named, is_name. destruct (d_args d !! t) as [a|]; [|split; [|done]; intros _ (a & ? & ?); done].
  destruct (decide (a_type a = TAny)); split; try done.
  - intros _ (b & [= <-] & H). done.
  - intros H. destruct H. eauto.
Qed.
Lemma parse_reads d n : forall toks pos ca ca', (length toks < n)%nat -> parse_tokens ext d toks pos ca = Some ca' -> exists asg, reads ext (d_args d) toks pos asg /\ ca' = add_all ca asg.
Proof.
  induction n as [|n IH]; intros toks pos ca ca' Hl E; [lia|]. destruct toks as [|t rest]; cbn [parse_tokens] in E.
  { injection E as <-. exists []. split; [constructor|done]. }
  cbn in Hl. fold (named d t) in E. destruct (named d t) as [[ty r]|] eqn:N.
  - assert (d_args d !! t = Some (Arg ty r) /\ ty <> TAny) as [Ea Hty]. { unfold named in N. destruct (d_args d !! t) as [a|]; [|done]. destruct (decide _); [done|]. injection N as ->. done. }
    cbn [a_type] in E. destruct (decide (ty = TNone)) as [->|Hn].
    + destruct (IH rest _ _ _ ltac:(lia) E) as (asg & H & ->). eexists; split; [by econstructor|done].
    + destruct rest as [|v rest']; [done|]. destruct (parse_value ext ty v) as [x|] eqn:V; [|done]. apply parse_value_means in V. cbn in Hl.
      destruct (IH rest' _ _ _ ltac:(lia) E) as (asg & H & ->). eexists; split; [by econstructor|done].
  - apply named_none in N. destruct (try_positional ext d t pos) as [p x pos'|p|] eqn:T; [| |done].
    + apply try_val in T as (sk & ty & r & -> & Hs & Ep & Hty & Hm). destruct (IH rest _ _ _ ltac:(lia) E) as (asg & H & ->). eexists; split; [by eapply r_pos|done].
    + apply try_any in T as (sk & r & pos' & -> & Hs & Ep). injection E as <-. eexists; split; [by eapply r_any|done].
Qed.
Lemma reads_parse d toks pos asg : reads ext (d_args d) toks pos asg -> forall ca, parse_tokens ext d toks pos ca = Some (add_all ca asg).
Proof.
  induction 1; intros ca; cbn [parse_tokens].
  - done.
  - rewrite H. cbn. apply IHreads.
  - rewrite H. cbn [a_type]. destruct (decide (ty = TAny)); [done|]. cbn [a_type]. destruct (decide (ty = TNone)); [done|]. rewrite (proj2 (parse_value_means _ _ _) H2). apply IHreads.
  - fold (named d t). rewrite (proj2 (named_none _ _) H). rewrite (proj2 (try_any _ _ _ p)) by eauto 10. done.
  - fold (named d t). rewrite (proj2 (named_none _ _) H). rewrite (proj2 (try_val _ _ _ p x pos)) by eauto 10. apply IHreads.
Qed.
Lemma add_all_map asg : forall ca, add_all ca asg = list_to_map (rev asg) ∪ ca.
Proof.
  induction asg as [|[k v] asg IH]; intros ca; cbn [add_all foldl rev].
  - cbn. by rewrite (left_id_L ∅ (∪)).
  - fold (add_all (<[k:=v]> ca) asg). rewrite IH, list_to_map_app. cbn. rewrite insert_empty, <- (assoc_L (∪)). f_equal. by rewrite insert_union_singleton_l.
Qed.
Lemma add_all_lookup asg k : (exists v, add_all ∅ asg !! k = Some v) <-> k ∈ asg.*1.
Proof.
  rewrite add_all_map, (right_id_L ∅ (∪)). split.
  - intros [v H]. apply elem_of_list_to_map_2 in H. apply elem_of_list_In, in_rev, elem_of_list_In in H. apply elem_of_list_fmap. by exists (k, v).
  - intros H. destruct (list_to_map (M := gmap string (val (X:=X))) (rev asg) !! k) as [v|] eqn:E; [eauto|].
    apply not_elem_of_list_to_map in E. destruct E. apply elem_of_list_fmap in H as ([k' v] & -> & H). apply elem_of_list_fmap. exists (k', v). split; [done|]. by apply elem_of_list_In, in_rev, elem_of_list_In in H || (apply elem_of_list_In; apply -> in_rev; by apply elem_of_list_In).
Qed.
Lemma missing_spec d (ca : gmap string (val (X:=X))) : missing d ca = false <-> forall n a, d_args d !! n = Some a -> a_required a = true -> is_Some (ca !! n).
Proof.
  unfold missing. split.
  - intros H n a E R. destruct (ca !! n) eqn:C; [eauto|]. exfalso. assert (existsb (fun '(n0, a0) => a_required a0 && match ca !! n0 with Some _ => false | None => true end) (map_to_list (d_args d)) = true); [|congruence].
    apply existsb_exists. exists (n, a). split; [by apply elem_of_list_In, elem_of_map_to_list|]. by rewrite R, C.
  - intros H. destruct (existsb _ _) eqn:E; [|done]. apply existsb_exists in E as ([n a] & I & B). apply elem_of_list_In, elem_of_map_to_list in I. apply andb_true_iff in B as [R C]. destruct (H _ _ I R) as [v Hv]. by rewrite Hv in C.
Qed.
Lemma parse_args_spec d toks ca : parse_args ext d toks = Some ca <->
  exists asg, reads ext (d_args d) toks (d_pos d) asg /\ ca = list_to_map (rev asg) /\ forall n a, d_args d !! n = Some a -> a_required a = true -> n ∈ asg.*1.
Proof.
  unfold parse_args. split.
  - destruct (parse_tokens ext d toks (d_pos d) ∅) as [c|] eqn:E; [|done]. destruct (missing d c) eqn:M; [done|]. intros [= <-].
    destruct (parse_reads _ _ _ _ _ _ (Nat.lt_succ_diag_r _) E) as (asg & H & ->). exists asg. split; [done|]. split; [by rewrite add_all_map, (right_id_L ∅ (∪))|].
    intros n a Ha R. apply add_all_lookup. by apply (proj1 (missing_spec _ _) M n a).
  - intros (asg & H & -> & R). rewrite (reads_parse _ _ _ _ H ∅).
    assert (missing d (add_all ∅ asg) = false) as ->. { apply missing_spec. intros n a Ha Hr. apply add_all_lookup. eauto. }
    by rewrite add_all_map, (right_id_L ∅ (∪)).
Qed.
Lemma reads_inv d t rest pos asg' : ~ is_name (d_args d) t -> reads ext (d_args d) (t :: rest) pos asg' ->
  (exists p, try_positional ext d t pos = PAny p /\ asg' = [(p, VList (t :: rest))]) \/
  (exists p x pos' asg, try_positional ext d t pos = PVal p x pos' /\ reads ext (d_args d) rest pos' asg /\ asg' = (p, x) :: asg).
Proof.
  intros Hn. inversion 1; subst.
  - destruct Hn. eexists; split; [eassumption|done].
  - destruct Hn. eexists; split; [eassumption|done].
  - left. eexists. split; [|done]. apply try_any. eauto 10.
  - right. do 4 eexists. split; [apply try_val; eauto 10|done].
Qed.
End nfdc.

(** ** Fields *)
Lemma is_sep_spec c : is_sep c = true <-> c ∈ separators.
Proof.
  unfold is_sep, separators. rewrite !elem_of_cons, elem_of_nil. destruct (ascii_dec c " "); [tauto|]. destruct (ascii_dec c (ascii_of_nat 9)); [tauto|]. split; [done|]. intros [?|[?|[]]]; done.
Qed.
Lemma is_quote_spec c : is_quote c = true <-> c ∈ quotes.
Proof.
  unfold is_quote, quotes. rewrite !elem_of_cons, elem_of_nil. destruct (ascii_dec c """"); [tauto|]. destruct (ascii_dec c "'"); [tauto|]. split; [done|]. intros [?|[?|[]]]; done.
Qed.
Lemma is_escape_spec c : is_escape c = true <-> c = "\"%char.
Proof. unfold is_escape, BACKSLASH. destruct (ascii_dec c "\"); split; done. Qed.
Lemma specials_spec c : is_quote c || is_sep c || is_escape c = true <-> c ∈ specials.
Proof.
  unfold specials. rewrite !elem_of_app, <- is_sep_spec, <- is_quote_spec, elem_of_list_singleton, <- is_escape_spec. rewrite !orb_true_iff. tauto.
Qed.
Lemma sep_escape c : c ∈ separators -> is_escape c = false /\ is_sep c = true /\ is_quote c = false.
Proof. unfold separators. rewrite !elem_of_cons, elem_of_nil. intros [->|[->|[]]]; done. Qed.
Lemma quote_escape c : c ∈ quotes -> is_escape c = false /\ is_sep c = false /\ is_quote c = true.
Proof. unfold quotes. rewrite !elem_of_cons, elem_of_nil. intros [->|[->|[]]]; done. Qed.
Lemma plain_escape c : c ∉ specials -> is_escape c = false /\ is_sep c = false /\ is_quote c = false.
Proof. rewrite <- specials_spec, not_true_iff_false, !orb_false_iff. tauto. Qed.
Lemma fields_cons q l fs : fields q l fs -> exists f r, fs = f :: r.
Proof. induction 1; eauto. Qed.
Lemma fields_ok q l fs : fields q l fs -> forall f r tok, fs = f :: r -> fields_from q tok l = ((tok ++ f) :: r, true).
Proof.
  induction 1 as [q|q l f fs H IH|q c l f fs Hc H IH|c l fs Hc H IH|c l f fs Hc H IH|q c l fs Hc H IH|q c l f fs Hc H IH]; intros f' r tok [= <- <-] || intros f' r tok Hr; cbn [fields_from].
  - by rewrite app_nil_r.
  - cbn [is_escape]. rewrite (proj2 (is_escape_spec _)) by done. destruct (ascii_dec "n" "n"); [|done]. rewrite (IH _ _ _ eq_refl). by rewrite <- app_assoc.
  - rewrite (proj2 (is_escape_spec _)) by done. destruct (ascii_dec c "n") as [->|]. { apply specials_spec in Hc. done. }
    rewrite (proj2 (specials_spec c)) by done. rewrite (IH _ _ _ eq_refl). by rewrite <- app_assoc.
  - destruct (sep_escape _ Hc) as (-> & -> & _). destruct (fields_cons _ _ _ H) as (f & r & ->). rewrite (IH _ _ [] eq_refl). by rewrite app_nil_r.
  - destruct (sep_escape _ Hc) as (-> & -> & _). rewrite (IH _ _ _ eq_refl). by rewrite <- app_assoc.
  - destruct (quote_escape _ Hc) as (-> & -> & ->). by apply IH.
  - destruct (plain_escape _ Hc) as (-> & -> & ->). rewrite (IH _ _ _ eq_refl). by rewrite <- app_assoc.
Qed.
Lemma ok_fields n : forall q l tok fs, (length l < n)%nat -> fields_from q tok l = (fs, true) -> exists f r, fs = (tok ++ f) :: r /\ fields q l (f :: r).
Proof.
  induction n as [|n IH]; intros q l tok fs Hl E; [lia|]. destruct l as [|c l]; cbn [fields_from] in E.
  { injection E as <-. exists [], []. rewrite app_nil_r. split; [done|constructor]. }
  cbn [length] in Hl. destruct (is_escape c) eqn:Ec.
  { apply is_escape_spec in Ec as ->. destruct l as [|e l]; [done|]. cbn [length] in Hl. destruct (ascii_dec e "n") as [->|].
    - apply IH in E as (f & r & -> & H); [|lia]. exists (ascii_of_nat 10 :: f), r. rewrite <- app_assoc. split; [done|by constructor].
    - destruct (is_quote e || is_sep e || is_escape e) eqn:S; [|done]. apply specials_spec in S. apply IH in E as (f & r & -> & H); [|lia]. exists (e :: f), r. rewrite <- app_assoc. split; [done|by constructor]. }
  destruct (is_sep c) eqn:Es.
  { apply is_sep_spec in Es. destruct q.
    - apply IH in E as (f & r & -> & H); [|lia]. exists (c :: f), r. rewrite <- app_assoc. split; [done|by constructor].
    - destruct (fields_from false [] l) as [r ok] eqn:E'. injection E as <- ->. apply IH in E' as (f & r' & -> & H); [|lia]. exists [], (f :: r'). rewrite app_nil_r. split; [done|by constructor]. }
  destruct (is_quote c) eqn:Eq.
  { apply is_quote_spec in Eq. apply IH in E as (f & r & -> & H); [|lia]. exists f, r. split; [done|by constructor]. }
  apply IH in E as (f & r & -> & H); [|lia]. exists (c :: f), r. rewrite <- app_assoc. split; [done|]. constructor; [|done]. rewrite <- specials_spec, Ec, Es, Eq. done.
Qed.
Lemma tokenize_fields l fs : fields false l fs -> exists fs', tokenize l = (fs', true) /\ List.filter nonempty fs' = List.filter nonempty fs.
Proof.
  intros H. destruct (fields_cons _ _ _ H) as (f & r & ->). destruct l as [|c l].
  - inversion H; subst. exists []. done.
  - exists (f :: r). split; [|done]. unfold tokenize. by rewrite (fields_ok _ _ _ H f r [] eq_refl).
Qed.
Lemma tokenize_ok l fs : tokenize l = (fs, true) -> exists fs', fields false l fs' /\ List.filter nonempty fs = List.filter nonempty fs'.
Proof.
  destruct l as [|c l]; cbn [tokenize].
  - intros [= <-]. exists [[]]. split; [constructor|done].
  - intros (f & r & -> & H)%(ok_fields _ _ _ _ _ (Nat.lt_succ_diag_r _)). eauto.
Qed.
Lemma line_fields l fs : fields false l fs -> line_tokens l = match List.filter nonempty fs with w :: ws => if decide (head w = Some "#"%char) then TkIgnore else TkWords (map string_of_list_ascii (w :: ws)) | [] => TkIgnore end.
Proof.
  intros H. destruct (tokenize_fields _ _ H) as (fs' & E & F). unfold line_tokens. rewrite E. fold nonempty. rewrite F.
  destruct (List.filter nonempty fs) as [|w ws] eqn:G; [done|]. assert (nonempty w = true) as Hw. { apply (List.filter_In nonempty w fs). rewrite G. by left. }
  destruct w as [|c w]; [done|]. cbn [head]. destruct (ascii_dec c "#") as [->|]; [by rewrite decide_True|]. rewrite decide_False by congruence. done.
Qed.
Lemma line_throws l : line_tokens l = TkThrows -> forall fs, ~ fields false l fs.
Proof. intros E fs H. rewrite (line_fields _ _ H) in E. destruct (List.filter nonempty fs); [done|]. by destruct (decide _). Qed.
Lemma line_words l ws : line_tokens l = TkWords ws -> exists fs, fields false l fs /\ ws = map string_of_list_ascii (List.filter nonempty fs).
Proof.
  intros E. destruct (tokenize l) as [fs ok] eqn:T. destruct ok.
  - destruct (tokenize_ok _ _ T) as (fs' & H & F). exists fs'. split; [done|]. rewrite (line_fields _ _ H) in E. destruct (List.filter nonempty fs') as [|w r]; [done|]. destruct (decide _); [done|]. by injection E as <-.
  - unfold line_tokens in E. rewrite T in E. destruct (List.filter _ fs) as [|[|c f] r]; try done. by destruct (ascii_dec c "#").
Qed.

(** ** Words between quotes *)
Lemma fields_char c l f fs : fields true l (f :: fs) -> fields true (quote_char c ++ l) ((c :: f) :: fs).
Proof.
  intros H. unfold quote_char. destruct (decide (c = ascii_of_nat 10)) as [->|]; [by constructor|]. destruct (decide _) as [Hq|Hc].
  - apply f_escape; [|done]. apply specials_spec. destruct Hq as [Hq| ->]; [|done]. by rewrite (proj2 (is_quote_spec c)).
  - destruct (is_sep c) eqn:Es; [apply f_quoted_sep; [by apply is_sep_spec|done]|]. apply f_plain; [|done].
    rewrite <- specials_spec, Es, !orb_true_iff, is_quote_spec, is_escape_spec. intros [[?|?]|?]; [tauto|done|tauto].
Qed.
Lemma fields_chars w l fs : fields false l ([] :: fs) -> fields true (flat_map quote_char w ++ """"%char :: l) (w :: fs).
Proof.
  intros H. induction w as [|c w IH]; cbn [flat_map app].
  - apply f_quote; [by apply is_quote_spec|done].
  - rewrite <- app_assoc. by apply fields_char.
Qed.
Lemma fields_word w l fs : fields false l ([] :: fs) -> fields false (quote_word w ++ l) (w :: fs).
Proof.
  intros H. unfold quote_word. cbn [app]. rewrite <- app_assoc. cbn [app]. apply f_quote; [by apply is_quote_spec|]. by apply fields_chars.
Qed.
Lemma fields_line ws : ws <> [] -> fields false (quote_line ws) ws.
Proof.
  induction ws as [|w ws IH]; [done|]. intros _. destruct ws as [|w' ws].
  - cbn [quote_line]. rewrite <- (app_nil_r (quote_word w)). apply fields_word. constructor.
  - change (quote_line (w :: w' :: ws)) with (quote_word w ++ " "%char :: quote_line (w' :: ws)). apply fields_word. apply f_sep; [by apply is_sep_spec|]. by apply IH.
Qed.
Lemma filter_all {A} (p : A -> bool) l : Forall (fun x => p x = true) l -> List.filter p l = l.
Proof. induction 1 as [|x l H _ IH]; [done|]. cbn. by rewrite H, IH. Qed.
Lemma line_quoted w ws : Forall (fun w => w <> []) (w :: ws) -> head w <> Some "#"%char -> line_tokens (quote_line (w :: ws)) = TkWords (map string_of_list_ascii (w :: ws)).
Proof.
  intros H Hw. rewrite (line_fields _ (w :: ws)) by by apply fields_line. rewrite filter_all. { by rewrite decide_False. }
  eapply Forall_impl; [exact H|]. intros [|]; done.
Qed.
Lemma fields_seps l : Forall (fun c => c ∈ separators) l -> exists fs, fields false l fs /\ List.filter nonempty fs = [].
Proof.
  induction 1 as [|c l Hc _ (fs & H & F)].
  - exists [[]]. split; [constructor|done].
  - exists ([] :: fs). split; [by constructor|done].
Qed.
Lemma line_blank l : Forall (fun c => c ∈ separators) l -> line_tokens l = TkIgnore.
Proof. intros (fs & H & F)%fields_seps. rewrite (line_fields _ _ H). by rewrite F. Qed.
(** without backslashes a line has fields *)
Lemma fields_noslash l : forall q, "\"%char ∉ l -> exists f fs, fields q l (f :: fs).
Proof.
  induction l as [|c l IH]; intros q Hn.
  - exists [], []. constructor.
  - apply not_elem_of_cons in Hn as [Hc Hn]. destruct (is_sep c) eqn:Es.
    + apply is_sep_spec in Es. destruct (IH q Hn) as (f & fs & H). destruct q; [exists (c :: f), fs|exists [], (f :: fs)]; by constructor.
    + destruct (is_quote c) eqn:Eq.
      * apply is_quote_spec in Eq. destruct (IH (negb q) Hn) as (f & fs & H). exists f, fs. by constructor.
      * destruct (IH q Hn) as (f & fs & H). exists (c :: f), fs. constructor; [|done]. rewrite <- specials_spec, Es, Eq, !orb_true_iff, is_escape_spec. naive_solver.
Qed.
Lemma line_comment l : "\"%char ∉ l -> line_tokens ("#"%char :: l) = TkIgnore.
Proof.
  intros Hn. destruct (fields_noslash l false Hn) as (f & fs & H). rewrite (line_fields _ (("#"%char :: f) :: fs)).
  - cbn. by destruct (decide _).
  - constructor; [|done]. intros H'%specials_spec. done.
Qed.
(** a comment of which the first word is plain: the rest is not even read *)
Lemma fields_lazy q w c rest : Forall (fun c => c ∉ specials) w -> c ∈ separators -> forall tok, exists fs ok, q = false -> fields_from q tok (w ++ c :: rest) = ((tok ++ w) :: fs, ok).
Proof.
  intros Hw Hc. induction Hw as [|x w Hx Hw IH]; intros tok; cbn [app].
  - destruct (fields_from false [] rest) as [fs ok] eqn:E. exists fs, ok. intros ->. cbn [fields_from]. destruct (sep_escape _ Hc) as (-> & -> & _). rewrite E. by rewrite app_nil_r.
  - destruct (IH (tok ++ [x])) as (fs & ok & H). exists fs, ok. intros Hq. cbn [fields_from]. destruct (plain_escape _ Hx) as (-> & -> & ->). rewrite H by done. by rewrite <- app_assoc.
Qed.
Lemma seps_from l rest : Forall (fun c => c ∈ separators) l -> exists pre, forall fs ok, fields_from false [] rest = (fs, ok) -> fields_from false [] (l ++ rest) = (pre ++ fs, ok) /\ List.filter nonempty pre = [].
Proof.
  induction 1 as [|c l Hc _ (pre & IH)].
  - exists []. done.
  - exists ([] :: pre). intros fs ok E. cbn [app fields_from]. destruct (sep_escape _ Hc) as (-> & -> & _). destruct (IH _ _ E) as [-> F]. done.
Qed.
Lemma line_comment_lazy l w c rest : Forall (fun c => c ∈ separators) l -> Forall (fun c => c ∉ specials) w -> c ∈ separators -> line_tokens (l ++ "#"%char :: w ++ c :: rest) = TkIgnore.
Proof.
  intros Hl Hw Hc. assert (Forall (fun c => c ∉ specials) ("#"%char :: w)) as Hw'. { constructor; [|done]. intros H%specials_spec. done. }
  destruct (fields_lazy false _ c rest Hw' Hc []) as (fs & ok & E). specialize (E eq_refl). cbn [app] in E.
  destruct (seps_from l ("#"%char :: w ++ c :: rest) Hl) as (pre & H). destruct (H _ _ E) as [E' F]. unfold line_tokens.
  assert (tokenize (l ++ "#"%char :: w ++ c :: rest) = (pre ++ ("#"%char :: w) :: fs, ok)) as ->. { rewrite <- E'. unfold tokenize. by destruct l. }
  fold nonempty. rewrite List.filter_app, F. cbn. done.
Qed.

(** ** Lines *)
Lemma slash_spec l : has_escape_slash l = Nat.odd (slashes l).
Proof.
  unfold has_escape_slash, slashes. do 2 f_equal. apply List.filter_ext. intros c. unfold is_escape, BACKSLASH. destruct (ascii_dec c "\") as [->|]; [done|]. symmetry. by apply Ascii.eqb_neq.
Qed.
Lemma slashes_app a b : slashes (a ++ b) = (slashes a + slashes b)%nat.
Proof. unfold slashes. by rewrite List.filter_app, app_length. Qed.
Lemma slashes_zero l : "\"%char ∉ l -> slashes l = 0%nat.
Proof.
  induction l as [|c l IH]; [done|]. rewrite not_elem_of_cons. intros [Hc Hl]. unfold slashes. cbn [List.filter].
  destruct (Ascii.eqb_spec c "\"); [naive_solver|]. by apply IH.
Qed.
Lemma join_even l rest : Nat.odd (slashes l) = false -> join_lines l rest = (l, rest, 0%nat).
Proof. intros H. destruct rest; destruct l as [|c l]; cbn [join_lines]; try done; by rewrite slash_spec, H. Qed.
Lemma join_odd l x rest : Nat.odd (slashes l) = true -> join_lines l (x :: rest) = match join_lines (removelast l ++ x) rest with (l', r, n) => (l', r, S n) end.
Proof. intros H. destruct l as [|c l]; [done|]. cbn [join_lines]. by rewrite slash_spec, H. Qed.
Lemma join_end l : Nat.odd (slashes l) = true -> join_lines l [] = (removelast l, [], 1%nat).
Proof. intros H. destruct l as [|c l]; [done|]. cbn [join_lines]. by rewrite slash_spec, H. Qed.
Lemma join_split chunks : forall acc last rest, "\"%char ∉ acc -> Forall (fun l => "\"%char ∉ l) (last :: chunks) ->
  join_lines (acc ++ ["\"%char]) (map (fun l => l ++ ["\"%char]) chunks ++ last :: rest) = (acc ++ concat chunks ++ last, rest, S (length chunks)).
Proof.
  induction chunks as [|c cs IH]; intros acc last rest Ha H; apply Forall_cons in H as [Hl Hc]; cbn [map app concat].
  - rewrite join_odd. 2:{ by rewrite slashes_app, (slashes_zero acc). } rewrite removelast_last. rewrite join_even; [done|]. by rewrite slashes_app, !slashes_zero.
  - apply Forall_cons in Hc as [Hc Hcs]. rewrite join_odd. 2:{ by rewrite slashes_app, (slashes_zero acc). } rewrite removelast_last, app_assoc, IH; [|set_solver|by constructor]. by rewrite <- !app_assoc.
Qed.
Lemma slashes_words ws : Forall (fun w => Forall (fun c => c ∉ quotes /\ c <> "\"%char /\ c <> ascii_of_nat 10) w) ws -> slashes (quote_line ws) = 0%nat.
Proof.
  assert (forall w, Forall (fun c => c ∉ quotes /\ c <> "\"%char /\ c <> ascii_of_nat 10) w -> slashes (quote_word w) = 0%nat) as Hw.
  { intros w H. apply slashes_zero. unfold quote_word. rewrite elem_of_cons, elem_of_app, elem_of_list_singleton. intros [?|[E|?]]; try done.
    induction H as [|c w (H1 & H2 & H3) _ IH]; [by apply elem_of_nil in E|]. cbn [flat_map] in E. apply elem_of_app in E as [E|E]; [|by apply IH].
    unfold quote_char in E. rewrite decide_False in E by done. rewrite decide_False in E by tauto. apply elem_of_list_singleton in E. congruence. }
  induction 1 as [|w ws H Hs IH]; [done|]. destruct ws as [|w' ws]; [by apply Hw|].
  change (quote_line (w :: w' :: ws)) with (quote_word w ++ [" "%char] ++ quote_line (w' :: ws)). rewrite !slashes_app, Hw by done. rewrite IH. done.
Qed.
Lemma item_join i ws rest : item_words i ws -> exists l ls l' n, item_lines i = l :: ls /\ join_lines l (ls ++ rest) = (l', rest, n) /\ S n = length (item_lines i) /\ line_tokens l' = match ws with Some w => TkWords w | None => TkIgnore end.
Proof.
  destruct 1 as [l H|l H|ws Hn H Hh|chunks last fs w ws H Hf Hw Hh]; cbn [item_lines].
  - exists l, [], l, 0%nat. repeat split; [|by apply line_blank]. apply join_even. rewrite slashes_zero; [done|]. intros E. rewrite Forall_forall in H. apply H, is_sep_spec in E. done.
  - exists ("#"%char :: l), [], ("#"%char :: l), 0%nat. repeat split; [|by apply line_comment]. apply join_even. rewrite slashes_zero; [done|]. rewrite elem_of_cons. intros [?|?]; done.
  - exists (quote_line ws), [], (quote_line ws), 0%nat. repeat split.
    + apply join_even. rewrite slashes_words; [done|]. eapply Forall_impl; [exact H|]. by intros ? [? ?].
    + destruct ws as [|w ws]; [done|]. apply line_quoted; [|by eapply Hh]. eapply Forall_impl; [exact H|]. by intros ? [? ?].
  - assert (line_tokens (concat chunks ++ last) = TkWords (map string_of_list_ascii (w :: ws))) as T. { rewrite (line_fields _ _ Hf), Hw. by rewrite decide_False. }
    destruct chunks as [|c cs]; cbn [map app].
    + exists last, [], last, 0%nat. repeat split; [|exact T]. apply join_even. rewrite slashes_zero; [done|]. by apply Forall_cons in H as [? _].
    + exists (c ++ ["\"%char]), (map (fun l => l ++ ["\"%char]) cs ++ [last]), ((c ++ concat cs) ++ last), (S (length cs)).
      apply Forall_cons in H as [Hl Hc]. apply Forall_cons in Hc as [Hc Hcs]. repeat split.
      * rewrite <- app_assoc. cbn [app]. rewrite join_split; [|done|by constructor]. by rewrite <- app_assoc.
      * cbn. rewrite app_length, map_length. cbn. lia.
      * exact T.
Qed.
Section batch.
Context {C : Type} (process : list string -> lresult C).
Lemma read_nil fuel count : read_batch process fuel count [] = BOk [].
Proof. by destruct fuel. Qed.
Lemma read_items items wss : Forall2 item_words items wss -> forall cs rest fuel count,
  Forall2 (fun w c => process w = LCmd c) (omap id wss) cs -> (length (concat (map item_lines items) ++ rest) <= fuel)%nat ->
  exists fuel', (length rest <= fuel')%nat /\
  read_batch process fuel count (concat (map item_lines items) ++ rest) = match read_batch process fuel' (count + length (concat (map item_lines items))) rest with BOk cs' => BOk (cs ++ cs') | b => b end.
Proof.
  induction 1 as [|i ws items wss Hi Hs IH]; intros cs rest fuel count Hc Hf.
  - cbn in Hc. inversion Hc; subst. exists fuel. split; [done|]. cbn. rewrite Nat.add_0_r. by destruct (read_batch _ _ _ _).
  - cbn [map concat] in *. rewrite <- app_assoc in *. destruct (item_join _ _ (concat (map item_lines items) ++ rest) Hi) as (l & ls & l' & n & El & J & En & T).
    rewrite El in *. cbn [app length] in *. destruct fuel as [|fuel]; [lia|]. cbn [read_batch]. rewrite J, T. rewrite !app_length in Hf.
    destruct ws as [w|]; cbn [omap list_omap id] in Hc.
    + inversion Hc as [|? c ? cs' Hw Hc']; subst. rewrite Hw. destruct (IH cs' rest fuel (S count + n)%nat Hc' ltac:(rewrite app_length; lia)) as (fuel' & Hf' & ->). exists fuel'. split; [done|].
      match goal with |- context [read_batch process fuel' (count + ?k) rest] => replace (count + k)%nat with (S count + n + length (concat (map item_lines items)))%nat by (cbn [length]; rewrite ?app_length; lia) end.
      by destruct (read_batch _ _ _ rest).
    + destruct (IH cs rest fuel (S count + n)%nat Hc ltac:(rewrite app_length; lia)) as (fuel' & Hf' & ->). exists fuel'. split; [done|].
      match goal with |- context [read_batch process fuel' (count + ?k) rest] => replace (count + k)%nat with (S count + n + length (concat (map item_lines items)))%nat by (cbn [length]; rewrite ?app_length; lia) end. done.
Qed.
Lemma read_stop i w rest fuel count : item_words i (Some w) -> (length (item_lines i ++ rest) <= fuel)%nat ->
  (process w = LNone -> read_batch process fuel count (item_lines i ++ rest) = BSyntax (count + length (item_lines i))) /\
  (forall p, process w = LMan p -> read_batch process fuel count (item_lines i ++ rest) = BMan p).
Proof.
  intros Hi Hf. destruct (item_join _ _ rest Hi) as (l & ls & l' & n & El & J & En & T). rewrite El in *. cbn [app length] in *. destruct fuel as [|fuel]; [lia|]. cbn [read_batch]. rewrite J, T.
  split; [intros ->|intros p ->; done]. f_equal. lia.
Qed.
End batch.
Lemma run_spec {C} (exec : C -> option N) cs n st : run_commands exec (map Some cs) = (n, st) <->
  (Forall (fun c => exec c = Some 0%N) cs /\ n = 0%N /\ st = cs) \/
  (exists pre c post, cs = pre ++ c :: post /\ Forall (fun c => exec c = Some 0%N) pre /\ st = pre ++ [c] /\ ((exec c = None /\ n = 1%N) \/ (exec c = Some n /\ n <> 0%N))).
Proof.
  revert n st. induction cs as [|c cs IH]; intros n st; cbn [map run_commands].
  - split; [intros [= <- <-]; by left|]. intros [(_ & -> & ->)|(pre & c & post & E & _)]; [done|]. by destruct pre.
  - destruct (exec c) as [m|] eqn:E; [destruct (N.eqb_spec m 0) as [->|Hm]; [destruct (run_commands exec (map Some cs)) as [m cs'] eqn:R|]|].
    + split.
      * intros [= <- <-]. destruct (proj1 (IH _ _) eq_refl) as [(H & -> & ->)|(pre & d & post & -> & H & -> & D)]; [left; repeat split; by constructor|].
        right. exists (c :: pre), d, post. repeat split; try done. by constructor.
      * intros [(H & -> & ->)|(pre & d & post & Ecs & H & -> & D)].
        -- apply Forall_cons in H as [_ H]. assert ((m, cs') = (0%N, cs)) as [= -> ->]; [|done]. apply IH. by left.
        -- destruct pre as [|c' pre]; injection Ecs as <- ->; [by destruct D as [[D _]|[D1 D2]]; congruence|]. apply Forall_cons in H as [_ H].
           assert ((m, cs') = (n, pre ++ [d])) as [= -> ->]; [|done]. apply IH. right. exists pre, d, post. done.
    + split.
      * intros [= <- <-]. right. exists [], c, cs. repeat split; try done. by right.
      * intros [(H & _)|(pre & d & post & Ecs & H & -> & D)]; [apply Forall_cons in H as [H _]; congruence|].
        destruct pre as [|c' pre]; injection Ecs as <- ->; [destruct D as [[D _]|[D1 D2]]; [congruence|]; by simplify_eq|]. apply Forall_cons in H as [H _]. congruence.
    + split.
      * intros [= <- <-]. right. exists [], c, cs. repeat split; try done. by left.
      * intros [(H & _)|(pre & d & post & Ecs & H & -> & D)]; [apply Forall_cons in H as [H _]; congruence|].
        destruct pre as [|c' pre]; injection Ecs as <- ->; [destruct D as [[D ->]|[D1 D2]]; [done|congruence]|]. apply Forall_cons in H as [H _]. congruence.
Qed.
