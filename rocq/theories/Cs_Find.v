(** Lookup and erasure of the content store: the prefix range is exact. *)
From Verif Require Import Lib Name_Model Name_Spec Name_Proof Packet_Model Cs_Model Cs_Spec Cs_Proof Cs_Refine.

Lemma key_cmp_lt d e : key_cmp (data_key d) (data_key e) = Lt <-> data_before d e.
Proof.
  unfold key_cmp, data_key, data_before; simpl.
  destruct (name_cmp (d_name d) (d_name e)) eqn:E.
  - apply name_cmp_ok in E. rewrite comp_cmp_lt, <-name_cmp_lt, E, (cmp_refl name_cmp_ok). naive_solver.
  - rewrite <-name_cmp_lt. naive_solver.
  - rewrite <-name_cmp_lt. split; [done|]. intros [?|[Heq _]]; [congruence|].
    rewrite Heq, (cmp_refl name_cmp_ok) in E. done.
Qed.

(** * Interest matching *)
Lemma matches_data_spec i d :
  matches_data i d = true <->
  name_satisfies i d /\ (i_mbf i = true -> (0 < d_fresh d)%Z).
Proof.
  unfold matches_data. rewrite andb_true_iff, negb_true_iff, andb_false_iff, Z.leb_gt.
  assert ((i_mbf i = false \/ (0 < d_fresh d)%Z) <-> (i_mbf i = true -> (0 < d_fresh d)%Z)) as ->.
  { destruct (i_mbf i); naive_solver. }
  apply and_iff_compat_r.
  unfold name_satisfies, d_full_name, digest_comp.
  destruct (length (i_name i) =? S (length (d_name d)))%nat eqn:E.
  - apply Nat.eqb_eq in E.
    destruct (exists_last (l:=i_name i)) as (q & c & Hq).
    { intros H. by rewrite H in E. }
    rewrite Hq, last_snoc, andb_true_iff, name_eqb_eq. split.
    + intros [_ ?]. by left.
    + intros [H|[H|[_ [s H]]]].
      * split; [|done]. apply app_inj_2 in H as [_ [= ->]]; done.
      * rewrite Hq in E. rewrite <-H in E. lia.
      * rewrite Hq in E. rewrite H, !app_length in E. simpl in E. lia.
  - apply Nat.eqb_neq in E. split.
    + destruct (i_cbp i).
      * rewrite name_prefixb_prefix. auto.
      * rewrite name_eqb_eq. auto.
    + intros [H|[H|[Hc H]]].
      * rewrite H, app_length in E. simpl in E. lia.
      * destruct (i_cbp i); [rewrite name_prefixb_prefix|rewrite name_eqb_eq]; by rewrite H.
      * rewrite Hc, name_prefixb_prefix. done.
Qed.

Lemma can_satisfy_spec now i it :
  can_satisfy now i (strip it) = true <-> item_satisfies now i it.
Proof.
  unfold can_satisfy, item_satisfies. simpl.
  destruct (matches_data i (it_data it)) eqn:E; simpl.
  - apply matches_data_spec in E as [H1 H2].
    unfold is_fresh. simpl. destruct (i_mbf i); simpl; [|naive_solver].
    destruct (now <=? it_fresh_until it)%Z eqn:E'; simpl; naive_solver lia.
  - split; [done|]. intros [H1 H2]. rewrite <-E. apply matches_data_spec. naive_solver.
Qed.

(** * The query order *)
Lemma query_cmp_snoc q c k :
  query_cmp (q ++ [c]) k =
  if is_digest c then
    match name_cmp q k.1 with Eq => comp_cmp c (T_IMPLICIT_DIGEST, k.2) | r => r end
  else match name_cmp (q ++ [c]) k.1 with Eq => Lt | r => r end.
Proof.
  unfold query_cmp. rewrite last_snoc, app_length. simpl.
  replace (length q + 1 - 1) with (length q) by lia. rewrite take_app.
  by destruct (is_digest c); destruct (name_cmp _ _).
Qed.
Lemma query_cmp_nil k : query_cmp [] k = Lt.
Proof. unfold query_cmp. simpl. by destruct k.1. Qed.

Lemma query_mono q k l : key_cmp k l = Lt -> query_cmp q l = Gt -> query_cmp q k = Gt.
Proof.
  intros Hkl. destruct q as [|c q _] using rev_ind.
  { by rewrite query_cmp_nil. }
  rewrite !query_cmp_snoc. destruct (is_digest c) eqn:Ed.
  - assert (c = (T_IMPLICIT_DIGEST, c.2)) as Hc.
    { destruct c as [t v]. unfold is_digest in Ed. simpl in *. apply N.eqb_eq in Ed. by rewrite Ed. }
    rewrite Hc.
    change (key_cmp (q, c.2) l = Gt -> key_cmp (q, c.2) k = Gt).
    rewrite !(cmp_gt_lt key_cmp_ok). intros. by eapply (cmp_trans key_cmp_ok).
  - destruct (name_cmp (q ++ [c]) l.1) eqn:E; try done. intros _.
    assert (name_cmp (q ++ [c]) k.1 = Gt) as ->; [|done].
    unfold key_cmp in Hkl. destruct (name_cmp k.1 l.1) eqn:E'; try done.
    + apply name_cmp_ok in E'. by rewrite E'.
    + rewrite (cmp_gt_lt name_cmp_ok) in E |- *. by eapply (cmp_trans name_cmp_ok).
Qed.

Lemma name_cmp_app_gt a b s : name_cmp a b = Gt -> name_cmp (a ++ s) b = Gt.
Proof.
  unfold name_cmp. revert b. induction a as [|c a IH]; intros [|d b]; simpl; try done.
  destruct (comp_cmp c d); try done. apply IH.
Qed.
Lemma name_cmp_app_self a c : name_cmp (a ++ [c]) a = Gt.
Proof.
  rewrite <-(app_nil_r a) at 2. by rewrite name_cmp_app.
Qed.
Lemma name_cmp_succ_gt q c : name_cmp (q ++ [comp_succ c]) (q ++ [c]) = Gt.
Proof.
  rewrite name_cmp_app. unfold name_cmp. simpl.
  rewrite (cmp_sym comp_cmp_ok c), comp_succ_lt. done.
Qed.

Lemma comp_succ_type c :
  (comp_succ c).1 = c.1 \/ (c.1 = T_IMPLICIT_DIGEST /\ (comp_succ c).1 = T_PARAMS_DIGEST) \/
  (c.1 = T_PARAMS_DIGEST /\ (comp_succ c).1 = 3%N).
Proof.
  unfold comp_succ. destruct (bytes_succ c.2) as [ov w]. destruct ov; simpl; [|auto].
  destruct (c.1 =? T_IMPLICIT_DIGEST)%N eqn:E1; [apply N.eqb_eq in E1; auto|].
  destruct (c.1 =? T_PARAMS_DIGEST)%N eqn:E2; [apply N.eqb_eq in E2; auto|]. auto.
Qed.
Lemma comp_succ_not_digest c : is_digest c = false -> is_digest (comp_succ c) = false.
Proof.
  unfold is_digest. rewrite !N.eqb_neq. intros H.
  destruct (comp_succ_type c) as [->|[[? ->]|[? ->]]]; done.
Qed.

Lemma query_succ_mono p k : p <> [] -> query_cmp p k = Gt -> query_cmp (name_succ p) k = Gt.
Proof.
  intros Hp. destruct (exists_last Hp) as (q & c & ->). rewrite name_succ_snoc, !query_cmp_snoc.
  destruct (is_digest c) eqn:Ed.
  - destruct (name_cmp q k.1) eqn:En; [|done|intros _].
    + intros Hc. apply name_cmp_ok in En. subst q.
      destruct (is_digest (comp_succ c)).
      * rewrite (cmp_gt_lt comp_cmp_ok) in Hc |- *.
        eapply (cmp_trans comp_cmp_ok); [done|apply comp_succ_lt].
      * by rewrite name_cmp_app_self.
    + destruct (is_digest (comp_succ c)); [done|]. by rewrite name_cmp_app_gt.
  - rewrite (comp_succ_not_digest _ Ed).
    destruct (name_cmp (q ++ [c]) k.1) eqn:En; try done. intros _.
    assert (name_cmp (q ++ [comp_succ c]) k.1 = Gt) as ->; [|done].
    rewrite (cmp_gt_lt name_cmp_ok) in En |- *.
    eapply (cmp_trans name_cmp_ok); [exact En|].
    rewrite <-(cmp_gt_lt name_cmp_ok). apply name_cmp_succ_gt.
Qed.

(** * The range found by two lower_bound calls *)
Lemma lower_bound_take q t : tbl_sorted t ->
  take (lower_bound q t) t = List.filter (entry_lt_query q) t /\
  drop (lower_bound q t) t = List.filter (fun e => negb (entry_lt_query q e)) t.
Proof.
  induction 1 as [|e t Hs IH HF]; [done|]. simpl.
  destruct (entry_lt_query q e) eqn:E; simpl.
  - destruct IH as [-> ->]. done.
  - assert (forall f, f ∈ t -> entry_lt_query q f = false) as Hall.
    { intros f Hf. rewrite Forall_forall in HF. specialize (HF f Hf).
      destruct (entry_lt_query q f) eqn:E'; [|done]. unfold entry_lt_query, is_gt in *.
      destruct (query_cmp q (e_key f)) eqn:E''; try done.
      by rewrite (query_mono _ _ _ HF E'') in E. }
    split; [symmetry; by apply lfilter_none|]. f_equal. symmetry. apply lfilter_all.
    intros f Hf. by rewrite (Hall f Hf).
Qed.

Definition in_range (p : name) (e : entry) : bool :=
  match p with
  | [] => true
  | _ => negb (entry_lt_query p e) && entry_lt_query (name_succ p) e
  end.

Lemma lower_bound_drop_mono p q t :
  (forall e, entry_lt_query p e = true -> entry_lt_query q e = true) ->
  lower_bound q t - lower_bound p t = lower_bound q (drop (lower_bound p t) t) /\
  lower_bound p t <= lower_bound q t.
Proof.
  intros H. induction t as [|e t IH]; [done|]. simpl.
  destruct (entry_lt_query p e) eqn:E.
  - rewrite (H _ E). simpl. split; [apply IH|lia].
  - simpl. split; lia.
Qed.

Lemma range_entries_filter p t : tbl_sorted t ->
  range_entries (find_prefix_range p t) t = List.filter (in_range p) t.
Proof.
  intros Hs. unfold range_entries, find_prefix_range. simpl.
  destruct p as [|c p].
  - assert (lower_bound [] t = 0) as ->.
    { destruct t; [done|]. simpl. unfold entry_lt_query. by rewrite query_cmp_nil. }
    rewrite drop_0, Nat.sub_0_r, take_ge by lia. symmetry. by apply lfilter_all.
  - assert (Hm : forall e, entry_lt_query (c :: p) e = true -> entry_lt_query (name_succ (c :: p)) e = true).
    { intros e. unfold entry_lt_query, is_gt. intros H.
      destruct (query_cmp (c :: p) (e_key e)) eqn:E; try done.
      by rewrite query_succ_mono. }
    destruct (lower_bound_drop_mono _ _ t Hm) as [-> _].
    destruct (lower_bound_take (c :: p) t Hs) as [_ Hd].
    assert (tbl_sorted (drop (lower_bound (c :: p) t) t)) as Hs'.
    { rewrite Hd. by apply lfilter_sorted. }
    destruct (lower_bound_take (name_succ (c :: p)) _ Hs') as [-> _].
    rewrite Hd. clear. induction t as [|e t IH]; [done|].
    simpl List.filter. unfold in_range at 1.
    destruct (entry_lt_query (c :: p) e); simpl; [done|].
    destruct (entry_lt_query (name_succ (c :: p)) e); simpl; by rewrite IH.
Qed.

(** std::set iteration from the first to the last bound never runs past the
    end: the bounds are in order. *)
Lemma find_prefix_range_ordered p t :
  (find_prefix_range p t).1 <= (find_prefix_range p t).2.
Proof.
  unfold find_prefix_range. simpl. destruct p as [|c p].
  - induction t; simpl; [done|]. case_match; lia.
  - apply lower_bound_drop_mono. intros e. unfold entry_lt_query, is_gt. intros H.
    destruct (query_cmp (c :: p) (e_key e)) eqn:E; try done. by rewrite query_succ_mono.
Qed.

(** * The range is the set of packets under the prefix *)
Lemma in_range_cases p e : p <> [] ->
  in_range p e = true <->
  query_cmp p (e_key e) <> Gt /\ query_cmp (name_succ p) (e_key e) = Gt.
Proof.
  intros Hp. destruct p as [|c p]; [done|]. unfold in_range.
  rewrite andb_true_iff, negb_true_iff. unfold entry_lt_query, is_gt.
  do 2 destruct (query_cmp _ _); naive_solver.
Qed.

Lemma under_in_range p e : data_wf (e_data e) -> under p (e_data e) -> in_range p e = true.
Proof.
  destruct p as [|c0 p0] eqn:Ep; [done|]. rewrite <-Ep. intros (Hv & Hnd & Hdg) Hu.
  apply in_range_cases; [by subst|].
  assert (p <> []) as Hp by by subst. clear Ep c0 p0.
  destruct (exists_last Hp) as (q & c & ->). unfold under in Hu.
  rewrite name_succ_snoc, !query_cmp_snoc. unfold e_key, data_key. simpl.
  assert (q ++ [c] `prefix_of` d_name (e_data e) \/
          q ++ [c] = d_name (e_data e) ++ [(T_IMPLICIT_DIGEST, d_digest (e_data e))]) as [Hpre|Heq].
  { destruct Hu as [s Hs]. destruct s as [|x s _] using rev_ind.
    - right. by rewrite app_nil_r in Hs.
    - left. rewrite app_assoc in Hs. apply app_inj_2 in Hs as [Hs _]; [|done].
      by exists s. }
  - assert (is_digest c = false) as Ed.
    { destruct Hpre as [s Hs]. rewrite Hs in Hnd. rewrite !Forall_app, Forall_singleton in Hnd.
      unfold is_digest. apply N.eqb_neq. apply Hnd. }
    rewrite Ed, (comp_succ_not_digest _ Ed). split.
    + pose proof (name_cmp_prefix _ _ Hpre). by destruct (name_cmp _ _).
    + pose proof (name_prefix_lt_succ _ _ Hp Hpre) as Hlt.
      rewrite name_succ_snoc in Hlt. apply (cmp_gt_lt name_cmp_ok) in Hlt. by rewrite Hlt.
  - apply app_inj_2 in Heq as [-> [= ->]]; [|done].
    change (is_digest (T_IMPLICIT_DIGEST, d_digest (e_data e))) with true.
    rewrite (cmp_refl name_cmp_ok), (cmp_refl comp_cmp_ok). split; [done|].
    destruct (is_digest (comp_succ _)).
    + rewrite (cmp_sym comp_cmp_ok (T_IMPLICIT_DIGEST, d_digest (e_data e))), comp_succ_lt. done.
    + by rewrite name_cmp_app_self.
Qed.

Lemma name_cmp_lt_split a b : name_cmp a b = Lt ->
  (exists x s, b = a ++ x :: s) \/ (forall t, name_cmp (a ++ t) b = Lt).
Proof.
  unfold name_cmp. revert b. induction a as [|c a IH]; intros [|d b]; simpl; try done.
  - intros _. left. by exists d, b.
  - destruct (comp_cmp c d) eqn:E; [|by right|done].
    apply comp_cmp_ok in E as ->. intros [(x & s & ->)|H]%IH; [left; by exists x, s|by right].
Qed.

Lemma in_range_under p e : data_wf (e_data e) -> name_valid p ->
  in_range p e = true -> under p (e_data e).
Proof.
  destruct p as [|c0 p0] eqn:Ep.
  { intros _ _ _. unfold under. apply prefix_nil. }
  rewrite <-Ep. intros (Hv & Hnd & Hdg) Hvp.
  assert (p <> []) as Hp by by subst. rewrite in_range_cases by done. clear Ep c0 p0.
  destruct (exists_last Hp) as (q & c & ->).
  assert (comp_valid c) as Hvc.
  { unfold name_valid in Hvp. rewrite Forall_app, Forall_singleton in Hvp. apply Hvp. }
  rewrite name_succ_snoc, !query_cmp_snoc. unfold e_key, data_key. simpl.
  set (dn := d_name (e_data e)) in *. set (dg := (T_IMPLICIT_DIGEST, d_digest (e_data e))) in *.
  unfold under. fold dn dg.
  destruct (is_digest c) eqn:Ed.
  - destruct (name_cmp q dn) eqn:En; [|intros [_ H]|naive_solver].
    + apply name_cmp_ok in En. subst q. intros [H1 H2].
      assert (c = dg) as ->; [|done].
      destruct (comp_cmp c dg) eqn:Ec; [by apply comp_cmp_ok|exfalso|done].
      pose proof (comp_succ_no_gap c dg Hvc Hdg Ec) as Hng.
      destruct (is_digest (comp_succ c)) eqn:Es.
      * apply (cmp_gt_lt comp_cmp_ok) in H2. done.
      * (* successor is a params digest: larger than any digest *)
        apply Hng. unfold comp_cmp.
        assert ((dg.1 ?= (comp_succ c).1)%N = Lt) as ->; [|done].
        rewrite N.compare_lt_iff. unfold is_digest in Ed, Es.
        apply N.eqb_eq in Ed. apply N.eqb_neq in Es.
        destruct (comp_succ_type c) as [Ht|[[_ Ht]|[Ht _]]]; rewrite ?Ht in *; simpl; try done.
    + exfalso. destruct (is_digest (comp_succ c)) eqn:Es; [done|].
      destruct (name_cmp (q ++ [comp_succ c]) dn) eqn:En'; try done.
      destruct (name_cmp_lt_split _ _ En) as [(x & s & Hs)|Hlt]; [|by rewrite Hlt in En'].
      rewrite Hs in *. rewrite name_cmp_app in En'. unfold name_cmp in En'. simpl in En'.
      unfold name_valid in Hv. rewrite Forall_app, Forall_cons in Hv, Hnd.
      destruct Hv as (_ & Hvx & _), Hnd as (_ & Hxd & _).
      assert (comp_cmp c x = Lt) as Hcx.
      { unfold comp_cmp. assert ((c.1 ?= x.1)%N = Lt) as ->; [|done].
        rewrite N.compare_lt_iff. unfold is_digest in Ed. apply N.eqb_eq in Ed. rewrite Ed.
        destruct Hvx as (Hx0 & _). cbv beta in Hxd. unfold T_IMPLICIT_DIGEST in *. lia. }
      pose proof (comp_succ_no_gap c x Hvc Hvx Hcx) as Hng.
      destruct (comp_cmp (comp_succ c) x) eqn:Ecx; try done.
      * by destruct s.
      * apply Hng. by apply (cmp_gt_lt comp_cmp_ok).
  - rewrite (comp_succ_not_digest _ Ed). intros [H1 H2].
    assert (q ++ [c] `prefix_of` dn) as [s ->]; [|by exists (s ++ [dg]); rewrite app_assoc].
    apply name_range_prefix; [done|done|done|by destruct (name_cmp (q ++ [c]) dn)|].
    rewrite name_succ_snoc. apply (cmp_gt_lt name_cmp_ok).
    by destruct (name_cmp (q ++ [comp_succ c]) dn).
Qed.

Definition wf_items (a : acs) : Prop := Forall (fun it => data_wf (it_data it)) (a_items a).

Lemma satisfies_under now i it : item_satisfies now i it -> under (i_name i) (it_data it).
Proof.
  intros [[H|[H|[_ H]]] _]; unfold under.
  - by rewrite H.
  - rewrite H. by eexists.
  - by apply prefix_app_r.
Qed.

Lemma find_lfilter {A} (f g : A -> bool) l : (forall x, x ∈ l -> f x = true -> g x = true) ->
  List.find f (List.filter g l) = List.find f l.
Proof.
  induction l as [|x l IH]; intros H; [done|]. simpl.
  destruct (g x) eqn:E; simpl.
  - destruct (f x); [done|]. apply IH. set_solver.
  - destruct (f x) eqn:E'; [|apply IH; set_solver].
    rewrite (H x) in E; [done|left|done].
Qed.

Lemma sorted_app_before t1 e t2 f : tbl_sorted (t1 ++ e :: t2) -> f ∈ t2 ->
  data_before (e_data e) (e_data f).
Proof.
  intros Hs Hf. apply key_cmp_lt. induction t1 as [|g t1 IH]; simpl in Hs; inversion Hs; subst.
  - rewrite Forall_forall in H2. by apply H2.
  - by apply IH.
Qed.

Lemma cs_find_R now i s a : R s a -> wf_items a ->
  exists s' a' r, cs_find now i s = Some (s', r) /\ a_find now i a a' r /\ R s' a' /\
    (forall it, it ∈ a_items a' <-> it ∈ a_items a).
Proof.
  intros HR Hwf. pose proof HR as [Hl Ha Hv Hs Hi Hp]. unfold cs_find.
  destruct (negb (cs_serve s) || (cs_limit s =? 0)%N) eqn:E1.
  { exists s, a, None. split; [done|]. split; [|done]. constructor.
    apply orb_true_iff in E1 as [E1|E1].
    - apply negb_true_iff in E1. left. congruence.
    - apply N.eqb_eq in E1. right. congruence. }
  apply orb_false_iff in E1 as [E1%negb_false_iff E2%N.eqb_neq].
  rewrite range_entries_filter by done.
  assert (forall e, e ∈ cs_table s -> exists it, it ∈ a_items a /\ e = strip it) as Hent.
  { intros e He. rewrite Hi in He. apply elem_of_list_fmap in He as (it & -> & ?). eauto. }
  rewrite find_lfilter.
  2:{ intros e He Hsat. destruct (Hent e He) as (it & Hit & ->).
      apply under_in_range; [unfold wf_items in Hwf; rewrite Forall_forall in Hwf; by apply Hwf|].
      apply can_satisfy_spec in Hsat. by eapply satisfies_under. }
  destruct (List.find (can_satisfy now i) (cs_table s)) as [e|] eqn:Ef.
  - apply find_some_split in Ef as (t1 & t2 & Ht & Hsat & Hfirst).
    destruct (Hent e) as (it & Hit & ->). { rewrite Ht. mem. }
    apply can_satisfy_spec in Hsat.
    assert (first_satisfying now i (a_items a) it) as Hfs.
    { split; [done|]. split; [done|]. intros it' Hit' Hsat'.
      assert (strip it' ∈ cs_table s) as Hin. { rewrite Hi. by apply elem_of_list_fmap_1. }
      rewrite Ht in Hin. apply elem_of_app in Hin as [Hin|Hin].
      - exfalso. apply Hfirst in Hin. apply can_satisfy_spec in Hsat'. congruence.
      - apply elem_of_cons in Hin as [Heq|Hin].
        + left. injection Heq as -> _ _. done.
        + right. rewrite Ht in Hs. by apply (sorted_app_before t1 (strip it) t2 (strip it')). }
    change (e_key (strip it)) with (it_key it). change (e_data (strip it)) with (it_data it).
    unfold before_use.
    pose proof Hit as Hit0. apply elem_of_list_split in Hit as (l1 & l2 & Hitems).
    pose proof (R_nodup _ _ HR) as Hnd. rewrite Hitems in Hnd.
    pose proof (nodup_mid _ _ _ Hnd) as (Hn1 & Hn2 & _).
    destruct (cs_policy s) as [q|p].
    + destruct Hp as (Hk & -> & Hr). rewrite Hitems, fmap_app, fmap_cons, lru_insert_old by done.
      eexists _, _, _. split; [done|]. split; [|split].
      * apply a_find_hit_lru; [congruence|rewrite <-Hl; lia|done|exact Hitems|done].
      * split; simpl; try done.
        -- rewrite Hi, Hitems. apply fmap_Permutation. rewrite app_assoc, <-Permutation_cons_append.
           by rewrite Permutation_middle.
        -- split; [done|]. split; [by rewrite !fmap_app|].
           rewrite Hitems in Hr. rewrite !Forall_app, Forall_cons in Hr.
           rewrite !Forall_app, Forall_singleton. naive_solver.
      * intros x. simpl. mem.
    + destruct Hp as (Hk & HRp). destruct (pf_R_info _ _ HRp it Hit0) as (ev & -> & _).
      exists s, a, (Some (it_data it)). split; [done|]. split; [|done].
      apply a_find_hit_pf; [congruence|rewrite <-Hl; lia|done|done].
  - exists s, a, None. split; [done|]. split; [|done]. apply a_find_miss.
    intros it Hit Hsat.
    assert (strip it ∈ cs_table s) as Hin. { rewrite Hi. by apply elem_of_list_fmap_1. }
    pose proof (find_none_elem _ _ _ Ef Hin) as Hf. apply can_satisfy_spec in Hsat. congruence.
Qed.

(** Soundness of lookup needs no assumption about the names. *)
Lemma cs_find_sound now i s s' d : cs_find now i s = Some (s', Some d) ->
  exists e, e ∈ cs_table s /\ d = e_data e /\ can_satisfy now i e = true.
Proof.
  unfold cs_find. case_match; [done|]. destruct (List.find _ _) as [e|] eqn:E; [|done].
  apply find_some_elem in E as [Hin Hsat]. case_match; [|done]. intros [= <- <-].
  exists e. split; [|done]. unfold range_entries in Hin.
  eapply elem_of_submseteq; [exact Hin|]. etrans; [apply submseteq_take|apply submseteq_drop].
Qed.

(** * Erasure *)
Definition drop_key (k : key) (l : list item) : list item :=
  List.filter (fun x => negb (key_eqb k (it_key x))) l.

Lemma drop_key_mid l1 it l2 : NoDup (it_key <$> l1 ++ it :: l2) ->
  drop_key (it_key it) (l1 ++ it :: l2) = l1 ++ l2.
Proof.
  intros Hnd. pose proof (nodup_mid _ _ _ Hnd) as (Hn1 & Hn2 & _).
  unfold drop_key. rewrite lfilter_app. simpl. rewrite key_eqb_refl. simpl.
  rewrite !lfilter_all; [done|..]; intros x Hx; rewrite negb_true_iff, key_eqb_neq; intros Heq.
  - apply Hn2. rewrite Heq. by apply elem_of_list_fmap_1.
  - apply Hn1. rewrite Heq. by apply elem_of_list_fmap_1.
Qed.

Lemma erase_one_R k s a : R s a -> k ∈ (it_key <$> a_items a) ->
  exists s', before_erase k s = Some s' /\
    R (cs_with s' (tbl_erase k (cs_table s')) (cs_policy s')) (a_with a (drop_key k (a_items a))).
Proof.
  intros HR Hk. pose proof HR as [Hl Ha Hv Hs Hi Hp].
  apply split_key in Hk as (l1 & it & l2 & Hitems & <-).
  pose proof (R_nodup _ _ HR) as Hnd. rewrite Hitems in Hnd.
  pose proof (nodup_mid _ _ _ Hnd) as (Hn1 & Hn2 & _).
  rewrite Hitems, drop_key_mid by done.
  assert (tbl_erase (it_key it) (cs_table s) ≡ₚ strip <$> l1 ++ l2) as Hp1.
  { eapply tbl_erase_perm; [done|by apply nodup_mid_cons|].
    by rewrite <-strip_mid_perm, <-Hitems. }
  unfold before_erase. destruct (cs_policy s) as [q|p].
  - destruct Hp as (Hkd & -> & Hr). eexists. split; [done|].
    split; simpl; try done.
    + by apply tbl_erase_sorted.
    + split; [done|]. rewrite Hitems, fmap_app, fmap_cons, key_remove_mid by done.
      split; [by rewrite fmap_app|]. rewrite Hitems, Forall_app, Forall_cons in Hr.
      rewrite Forall_app. naive_solver.
  - destruct Hp as (Hkd & HRp). rewrite Hitems in HRp.
    destruct (pf_detach_R _ _ _ _ Hnd HRp) as (p' & -> & HR' & _).
    eexists. split; [done|]. split; simpl; try done. by apply tbl_erase_sorted.
Qed.

Definition drop_keys (ks : list key) (l : list item) : list item :=
  List.filter (fun x => negb (key_mem (it_key x) ks)) l.
Lemma drop_keys_nil l : drop_keys [] l = l.
Proof. by apply lfilter_all. Qed.
Lemma lfilter_lfilter {A} (f g : A -> bool) l :
  List.filter f (List.filter g l) = List.filter (fun x => g x && f x) l.
Proof. induction l as [|x l IH]; [done|]. simpl. destruct (g x); simpl; by rewrite IH. Qed.
Lemma drop_keys_cons k ks l : drop_keys (k :: ks) l = drop_keys ks (drop_key k l).
Proof.
  unfold drop_keys, drop_key. rewrite lfilter_lfilter. apply filter_ext. intros x.
  simpl. rewrite negb_orb. f_equal. f_equal.
  destruct (key_eqb k (it_key x)) eqn:E.
  - apply key_eqb_eq in E. by apply key_eqb_eq.
  - apply key_eqb_neq in E. apply key_eqb_neq. congruence.
Qed.

Lemma erase_loop_R range limit n s a :
  R s a -> NoDup (e_key <$> range) -> (forall e, e ∈ range -> e_key e ∈ (it_key <$> a_items a)) ->
  (n <= limit)%N ->
  let m := Nat.min (length range) (N.to_nat (limit - n)) in
  exists s', erase_loop range limit n s = Some (s', (n + N.of_nat m)%N) /\
    R s' (a_with a (drop_keys (take m (e_key <$> range)) (a_items a))).
Proof.
  revert n s a. induction range as [|e range IH]; intros n s a HR Hnd Hin Hn m.
  - subst m. simpl. exists s. split; [do 2 f_equal; lia|]. rewrite drop_keys_nil.
    by destruct a.
  - simpl in Hnd. apply NoDup_cons in Hnd as [Hne Hnd]. simpl erase_loop.
    destruct (n <? limit)%N eqn:E.
    + destruct (erase_one_R (e_key e) s a HR) as (s1 & -> & HR1); [apply Hin; left|].
      destruct (IH (n + 1)%N _ _ HR1 Hnd) as (s' & Hs' & HR').
      * intros f Hf. simpl. assert (e_key f ∈ (it_key <$> a_items a)) as Hf' by (apply Hin; by right).
        apply elem_of_list_fmap in Hf' as (x & Hx & Hxin). rewrite Hx.
        apply elem_of_list_fmap_1. apply lfilter_elem. split; [done|].
        rewrite negb_true_iff, key_eqb_neq, <-Hx. intros Heq. apply Hne. rewrite Heq.
        by apply elem_of_list_fmap_1.
      * lia.
      * assert (m = S (length range `min` N.to_nat (limit - (n + 1)))) as ->.
        { subst m. cbn [length]. lia. }
        exists s'. split.
        -- rewrite Hs'. do 2 f_equal. lia.
        -- cbn [take fmap list_fmap]. rewrite drop_keys_cons. done.
    + assert (m = 0) as -> by (subst m; lia). exists s. split; [do 2 f_equal; lia|].
      rewrite drop_keys_nil. by destruct a.
Qed.

Lemma lfilter_sublist {A} (f : A -> bool) l : List.filter f l `sublist_of` l.
Proof. induction l; simpl; [done|]. case_match; by constructor. Qed.

Lemma lfilter_split_perm {A} (f : A -> bool) l :
  l ≡ₚ List.filter f l ++ List.filter (fun x => negb (f x)) l.
Proof.
  induction l as [|x l IH]; [done|]. simpl. destruct (f x); simpl.
  - by constructor.
  - rewrite <-Permutation_middle. by constructor.
Qed.

Lemma cs_erase_R p limit s a : R s a -> wf_items a -> name_valid p ->
  exists s' a' n, cs_erase p limit s = Some (s', n) /\ a_erase p limit a a' n /\ R s' a' /\
    (forall it, it ∈ a_items a' -> it ∈ a_items a).
Proof.
  intros HR Hwf Hvp. pose proof HR as [Hl Ha Hv Hs Hi Hp]. unfold cs_erase.
  rewrite range_entries_filter by done.
  set (rg := List.filter (in_range p) (cs_table s)).
  assert (tbl_sorted rg) as Hsr by by apply lfilter_sorted.
  assert (forall e, e ∈ cs_table s -> exists it, it ∈ a_items a /\ e = strip it) as Hent.
  { intros e He. rewrite Hi in He. apply elem_of_list_fmap in He as (it & -> & ?). eauto. }
  assert (forall it, it ∈ a_items a -> data_wf (it_data it)) as Hwf'.
  { intros it Hit. unfold wf_items in Hwf. rewrite Forall_forall in Hwf. by apply Hwf. }
  assert (Hrg : forall it, it ∈ a_items a -> strip it ∈ rg <-> under p (it_data it)).
  { intros it Hit. unfold rg. rewrite lfilter_elem, Hi. split.
    - intros [_ Hr]. apply (in_range_under p (strip it)); [by apply Hwf'|done|done].
    - intros Hu. split; [by apply elem_of_list_fmap_1|].
      apply under_in_range; [by apply Hwf'|done]. }
  destruct (erase_loop_R rg limit 0 s a HR) as (s' & -> & HR').
  { by apply tbl_sorted_nodup. }
  { intros e [He _]%lfilter_elem. destruct (Hent e He) as (it & Hit & ->).
    rewrite strip_key. by apply elem_of_list_fmap_1. }
  { lia. }
  set (m := Nat.min (length rg) (N.to_nat (limit - 0))) in *.
  set (ks := take m (e_key <$> rg)) in *.
  exists s', (a_with a (drop_keys ks (a_items a))), (0 + N.of_nat m)%N.
  split; [done|]. split; [|split; [done|]].
  2:{ intros it [Hit _]%lfilter_elem. done. }
  assert (NoDup ks) as Hndk.
  { subst ks. eapply sublist_nodup; [|by apply tbl_sorted_nodup]. apply sublist_take. }
  assert (Hks : forall it, it ∈ a_items a -> it_key it ∈ ks <-> strip it ∈ take m rg).
  { intros it Hit. subst ks. rewrite <-fmap_take. split.
    - intros (e & He & Hin)%elem_of_list_fmap.
      assert (e ∈ cs_table s) as Hin'.
      { apply (sublist_elem_of _ _ _ (sublist_take _ _)) in Hin. by apply lfilter_elem in Hin as [? _]. }
      destruct (Hent e Hin') as (it' & Hit' & ->). rewrite strip_key in He.
      assert (it = it') as ->; [|done]. exact (nodup_key_inj _ _ _ (R_nodup _ _ HR) Hit Hit' He).
    - intros Hin. rewrite <-strip_key. by apply elem_of_list_fmap_1. }
  exists (fun it => it ∈ a_items a /\ it_key it ∈ ks), (fun it => it ∈ a_items a /\ it_key it ∉ ks).
  split_and!.
  - intros it Hit. destruct (decide (it_key it ∈ ks)); auto.
  - intros it [Hit Hk]. split; [done|]. split; [|naive_solver].
    apply Hrg; [done|]. apply Hks in Hk; [|done].
    by apply (sublist_elem_of _ _ _ (sublist_take _ _)) in Hk.
  - intros v it [Hvin Hvk] Hit [_ Hk] Hu.
    apply Hrg in Hu; [|done]. apply Hks in Hvk; [|done].
    rewrite Hks in Hk by done.
    rewrite <-(take_drop m rg) in Hu, Hsr. apply elem_of_app in Hu as [Hu|Hu]; [done|].
    apply elem_of_list_split in Hvk as (r1 & r2 & Hr). rewrite Hr in Hsr.
    rewrite <-app_assoc in Hsr. simpl in Hsr.
    apply (sorted_app_before _ _ _ (strip it)) in Hsr; [done|]. mem.
  - intros (it & Hit & [_ Hk] & Hu). apply Hrg in Hu; [|done]. rewrite Hks in Hk by done.
    assert (m < length rg); [|lia].
    destruct (decide (m < length rg)) as [|Hge]; [done|]. exfalso. apply Hk.
    rewrite take_ge by lia. done.
  - lia.
  - exists (List.filter (fun it => key_mem (it_key it) ks) (a_items a)).
    split_and!.
    + rewrite Forall_forall. intros it [Hit Hk]%lfilter_elem. split; [done|]. by apply key_mem_spec.
    + eapply sublist_nodup; [apply lfilter_sublist|]. eapply NoDup_fmap_1. exact (R_nodup _ _ HR).
    + assert (ks ≡ₚ it_key <$> List.filter (fun it => key_mem (it_key it) ks) (a_items a)) as Hperm.
      { apply NoDup_Permutation; [done| |].
        - eapply sublist_nodup; [apply sublist_map, lfilter_sublist|]. exact (R_nodup _ _ HR).
        - intros k. rewrite elem_of_list_fmap. split.
          + intros Hk. assert (k ∈ (it_key <$> a_items a)) as Hka.
            { subst ks. apply (sublist_elem_of _ _ _ (sublist_take _ _)) in Hk.
              apply elem_of_list_fmap in Hk as (e & -> & [He _]%lfilter_elem).
              destruct (Hent e He) as (it & Hit & ->). rewrite strip_key. by apply elem_of_list_fmap_1. }
            apply elem_of_list_fmap in Hka as (it & -> & Hit). exists it. split; [done|].
            apply lfilter_elem. split; [done|]. by apply key_mem_spec.
          + intros (it & -> & [_ Hk]%lfilter_elem). by apply key_mem_spec. }
      apply Permutation_length in Hperm. rewrite fmap_length in Hperm. rewrite <-Hperm.
      subst ks. rewrite take_length, fmap_length. lia.
    + simpl. apply lfilter_split_perm.
  - simpl. rewrite Forall_forall. intros it [Hit Hk]%lfilter_elem. split; [done|].
    apply negb_true_iff in Hk. by apply key_mem_false.
  - simpl. apply lfilter_sublist.
  - done.
Qed.
