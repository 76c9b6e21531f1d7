(** The hash table implements a finite map. *)
From stdpp Require Import gmap.
From Verif Require Import Lib Name_Model Name_Proof Nt_Model Nt_Spec.

Section nt.
  Context {E : Type} (e0 : E) (hc : comp -> N) (opts : ht_options).
  Notation node := (node (E:=E)).
  Notation hashtable := (hashtable (E:=E)).
  Implicit Types (t : hashtable) (x : node) (bs : list (list node)) (n : name).

  Definition nodes t : list node := concat (buckets t).
  Definition abs_of (l : list node) : gmap name node := list_to_map ((fun x => (n_name x, x)) <$> l).
  Definition abs t : gmap name node := abs_of (nodes t).

  Definition place_ok bs : Prop :=
    forall b chain x, bs !! b = Some chain -> x ∈ chain ->
      n_hash x = compute_hash hc (n_name x) (length (n_name x)) /\ bucket_index bs (n_hash x) = b.

  Record ht_inv t : Prop := {
    hi_pos : (o_min opts <= n_buckets t)%N;
    hi_place : place_ok (buckets t);
    hi_nodup : NoDup (n_name <$> nodes t);
    hi_size : ht_size t = N.of_nat (length (nodes t));
    hi_thr : expand_threshold t = o_expand_threshold opts (n_buckets t) /\
             shrink_threshold t = o_shrink_threshold opts (n_buckets t);
  }.

  Lemma abs_of_lookup l n x : NoDup (n_name <$> l) ->
    abs_of l !! n = Some x <-> x ∈ l /\ n_name x = n.
  Proof.
    intros Hnd. unfold abs_of. rewrite <- elem_of_list_to_map.
    - rewrite elem_of_list_fmap. split.
      + intros (y & [= -> ->] & ?). done.
      + intros [? <-]. eauto.
    - rewrite <- list_fmap_compose. exact Hnd.
  Qed.
  Lemma abs_of_perm l l' : NoDup (n_name <$> l) -> l ≡ₚ l' -> abs_of l = abs_of l'.
  Proof.
    intros Hnd Hp. unfold abs_of. apply list_to_map_proper; [|by rewrite Hp].
    rewrite <- list_fmap_compose. exact Hnd.
  Qed.

  Lemma concat_lookup_in bs b chain x : bs !! b = Some chain -> x ∈ chain -> x ∈ concat bs.
  Proof.
    intros H Hx. apply elem_of_list_lookup_2 in H.
    apply elem_of_list_In, in_concat. exists chain. split; by apply elem_of_list_In.
  Qed.
  Lemma concat_in_lookup bs x : x ∈ concat bs -> exists b chain, bs !! b = Some chain /\ x ∈ chain.
  Proof.
    intros H. apply elem_of_list_In, in_concat in H as (chain & H1 & H2).
    apply elem_of_list_In in H1, H2. apply elem_of_list_lookup in H1 as [b H1]. eauto.
  Qed.

  (** the hash of a prefix only depends on the prefix *)
  Lemma compute_hash_take n len : len <= length n ->
    compute_hash hc (take len n) (length (take len n)) = compute_hash hc n len.
  Proof. intros H. unfold compute_hash. by rewrite take_length_le, take_take, Nat.min_id by lia. Qed.
  Lemma compute_hash_self n : compute_hash hc n (length n) = compute_hash hc (take (length n) n) (length n).
  Proof. by rewrite firstn_all. Qed.

  Lemma hashes_from_lookup cs : forall h i, i <= length cs ->
    hashes_from hc h cs !! i = Some (foldl (fun h c => N.lxor h (hc c)) h (take i cs)).
  Proof.
    induction cs as [|c cs IH]; intros h i Hi; simpl in *.
    - assert (i = 0) as -> by lia. done.
    - destruct i as [|i]; [done|]. simpl. apply IH. lia.
  Qed.
  Lemma compute_hashes_lookup n len i : len <= length n -> i <= len ->
    compute_hashes hc n len !! i = Some (compute_hash hc n i).
  Proof.
    intros H1 H2. unfold compute_hashes. rewrite hashes_from_lookup by (rewrite take_length; lia).
    unfold compute_hash. rewrite take_take. by rewrite Nat.min_l by lia.
  Qed.

  (** chain search = map lookup *)
  Lemma chain_find_abs t n len : ht_inv t -> (0 < o_min opts)%N -> len <= length n ->
    chain_find n len (compute_hash hc n len)
      (default [] (buckets t !! bucket_index (buckets t) (compute_hash hc n len))) =
    abs t !! take len n.
  Proof.
    intros I H0 Hlen. unfold chain_find, abs.
    set (h := compute_hash hc n len). set (b := bucket_index _ h).
    destruct (List.find _ _) as [x|] eqn:F.
    - apply find_some in F as [Hin Hx]. apply andb_prop in Hx as [_ Hx]. apply name_eqb_eq in Hx.
      symmetry. apply abs_of_lookup; [apply I|]. split; [|done].
      destruct (buckets t !! b) eqn:Eb; [|done]. simpl in Hin.
      eapply concat_lookup_in; [exact Eb|]. by apply elem_of_list_In.
    - destruct (abs_of (nodes t) !! take len n) as [x|] eqn:A; [exfalso|done].
      apply abs_of_lookup in A as [Hin Hn]; [|apply I].
      apply concat_in_lookup in Hin as (b' & chain & Hb & Hx).
      destruct (hi_place t I b' chain x Hb Hx) as [Hh Hi].
      assert (n_hash x = h) as Hh'.
      { rewrite Hh, Hn. by apply compute_hash_take. }
      rewrite Hh' in Hi. fold b in Hi. subst b'. rewrite Hb in F. simpl in F.
      eapply find_none in F; [|by apply elem_of_list_In].
      simpl in F. rewrite Hh', N.eqb_refl, Hn, name_eqb_refl in F. done.
  Qed.

  Lemma find_abs t n len : ht_inv t -> (0 < o_min opts)%N -> len <= length n ->
    ht_find e0 hc opts n len t = abs t !! take len n.
  Proof.
    intros I H0 Hlen. unfold ht_find, find_or_insert. rewrite (chain_find_abs t n len I H0 Hlen).
    by destruct (abs t !! take len n).
  Qed.
  Lemma deref_abs t n : ht_inv t -> (0 < o_min opts)%N -> deref e0 hc opts n t = abs t !! n.
  Proof. intros I H0. unfold deref. rewrite find_abs by done. by rewrite firstn_all. Qed.
  Lemma find_with_abs t n len i : ht_inv t -> (0 < o_min opts)%N -> len <= length n -> i <= len ->
    ht_find_with e0 hc opts n i (compute_hashes hc n len) t = Some (abs t !! take i n).
  Proof.
    intros I H0 H1 H2. unfold ht_find_with. rewrite compute_hashes_lookup by done.
    rewrite N.eqb_refl. unfold find_or_insert. rewrite chain_find_abs by (done || lia).
    by destruct (abs t !! take i n).
  Qed.

  (** ** attach and resize *)
  Lemma bucket_index_lt bs h : bs <> [] -> bucket_index bs h < length bs.
  Proof.
    intros H. unfold bucket_index. destruct bs; [done|].
    pose proof (N.mod_lt h (N.of_nat (length (l :: bs))) ltac:(simpl; lia)). lia.
  Qed.
  Lemma bucket_index_length bs bs' h : length bs = length bs' -> bucket_index bs h = bucket_index bs' h.
  Proof. unfold bucket_index. by intros ->. Qed.
  Lemma attach_length bs b x : length (attach bs b x) = length bs.
  Proof. apply alter_length. Qed.

  Lemma attach_perm bs b x : b < length bs -> concat (attach bs b x) ≡ₚ x :: concat bs.
  Proof.
    unfold attach. revert b. induction bs as [|chain bs IH]; intros b Hb; simpl in *; [lia|].
    destruct b as [|b]; [done|].
    change (alter (fun c => x :: c) (S b) (chain :: bs)) with (chain :: alter (fun c => x :: c) b bs).
    cbn [concat]. rewrite IH by lia. symmetry. apply Permutation_middle.
  Qed.
  Lemma attach_place bs b x : place_ok bs ->
    n_hash x = compute_hash hc (n_name x) (length (n_name x)) ->
    bucket_index bs (n_hash x) = b -> place_ok (attach bs b x).
  Proof.
    intros P Hh Hb b' chain y Hl Hy. unfold attach in *.
    rewrite (bucket_index_length _ bs) by apply alter_length.
    destruct (decide (b' = b)) as [->|Hne].
    - rewrite list_lookup_alter in Hl. destruct (bs !! b) as [c|] eqn:Ec; [|done].
      simpl in Hl. simplify_eq. apply elem_of_cons in Hy as [->|Hy]; [done|].
      eapply P; [|exact Hy]. done.
    - rewrite list_lookup_alter_ne in Hl by done. by eapply P.
  Qed.

  Lemma resize_fold l : forall bs, bs <> [] -> place_ok bs ->
    (forall x, x ∈ l -> n_hash x = compute_hash hc (n_name x) (length (n_name x))) ->
    let r := foldl (fun bs x => attach bs (bucket_index bs (n_hash x)) x) bs l in
    length r = length bs /\ place_ok r /\ concat r ≡ₚ l ++ concat bs.
  Proof.
    induction l as [|x l IH]; intros bs H0 P Hh; simpl; [done|].
    set (bs1 := attach bs _ x).
    assert (length bs1 = length bs) as Hl by apply attach_length.
    destruct (IH bs1) as (L & P' & Pm).
    - intros ->. destruct bs; done.
    - apply attach_place; [done| |done]. apply Hh. mem.
    - intros y Hy. apply Hh. mem.
    - split_and!; [by rewrite L|done|]. rewrite Pm. unfold bs1.
      rewrite attach_perm by (by apply bucket_index_lt). by rewrite Permutation_middle.
  Qed.

  Lemma concat_replicate_nil k : concat (replicate k ([] : list node)) = [].
  Proof. by induction k. Qed.

  Lemma resize_ok t k : place_ok (buckets t) -> (0 < k)%N ->
    NoDup (n_name <$> nodes t) ->
    let r := ht_resize opts k t in
    nodes r ≡ₚ nodes t /\ place_ok (buckets r) /\ n_buckets r = k /\
    ht_size r = ht_size t /\
    ((n_buckets t = k /\ r = t) \/
     (expand_threshold r = o_expand_threshold opts k /\ shrink_threshold r = o_shrink_threshold opts k)).
  Proof.
    intros P Hk Hnd. unfold ht_resize. destruct (n_buckets t =? k)%N eqn:Ek; simpl.
    { apply N.eqb_eq in Ek. split_and!; auto. }
    destruct (resize_fold (concat (buckets t)) (replicate (N.to_nat k) [])) as (L & P' & Pm).
    - intros H. apply (f_equal length) in H. rewrite replicate_length in H. simpl in H. lia.
    - intros b chain x Hb Hx. apply lookup_replicate in Hb as [-> _]. mem.
    - intros x Hx. apply concat_in_lookup in Hx as (b & c & Hb & Hx). by eapply P.
    - rewrite concat_replicate_nil, app_nil_r in Pm. rewrite replicate_length in L.
      unfold n_buckets, nodes. simpl. rewrite L. rewrite N2Nat.id.
      split_and!; try done. by right.
  Qed.

  Lemma foi_insert t n len :
    options_ok opts -> ht_inv t -> len <= length n -> abs t !! take len n = None ->
    let h := compute_hash hc n len in
    let new := Node h (take len n) None [] e0 in
    exists t', find_or_insert e0 opts n len h true t = (t', Some (new, true)) /\
      ht_inv t' /\ nodes t' ≡ₚ new :: nodes t.
  Proof.
    intros (H0 & H1 & H2) I Hlen Hn h new. unfold find_or_insert.
    pose proof (chain_find_abs t n len I H0 Hlen) as Hc. fold h in Hc. rewrite Hc, Hn.
    eexists. split; [reflexivity|].
    set (b := bucket_index (buckets t) h).
    assert (buckets t <> []) as Hne.
    { pose proof (hi_pos t I) as Hp. unfold n_buckets in Hp. intros Hb. rewrite Hb in Hp. simpl in Hp. lia. }
    set (t1 := Ht (attach (buckets t) b new) (ht_size t + 1) (expand_threshold t) (shrink_threshold t)).
    assert (nodes t1 ≡ₚ new :: nodes t) as Hp1.
    { unfold nodes. simpl. apply attach_perm. by apply bucket_index_lt. }
    assert (place_ok (buckets t1)) as Pl1.
    { apply attach_place; [apply I| |done]. simpl. unfold h. symmetry. by apply compute_hash_take. }
    assert (n_buckets t1 = n_buckets t) as Hb1.
    { unfold n_buckets. simpl. by rewrite attach_length. }
    assert (NoDup (n_name <$> nodes t1)) as Nd1.
    { rewrite Hp1. simpl. apply NoDup_cons. split; [|apply I].
      intros (y & Hy & Hin)%elem_of_list_fmap.
      assert (abs t !! take len n = Some y); [|congruence].
      apply abs_of_lookup; [apply I|done]. }
    assert (ht_inv t1) as I1.
    { split; try done.
      - rewrite Hb1. apply I.
      - simpl. rewrite Hp1. simpl. rewrite (hi_size t I). lia.
      - rewrite Hb1. apply I. }
    fold new. fold b. fold t1.
    destruct (expand_threshold t1 <? ht_size t1)%N; [|done].
    assert (0 < n_buckets t1)%N by (pose proof (hi_pos t1 I1); lia).
    destruct (resize_ok t1 (o_expand opts (n_buckets t1))) as (Q1 & Q2 & Q3 & Q4 & Q5); [done| |done|].
    { pose proof (H2 (n_buckets t1)). lia. }
    split.
    - split.
      + rewrite Q3. pose proof (hi_pos t1 I1). pose proof (H2 (n_buckets t1)). lia.
      + done.
      + by rewrite Q1.
      + rewrite Q4, Q1. apply I1.
      + rewrite Q3. destruct Q5 as [[Q5 ->]|Q5]; [rewrite <- Q5; apply I1|done].
    - by rewrite Q1.
  Qed.

  Lemma abs_insert t t' new : ht_inv t -> ht_inv t' -> nodes t' ≡ₚ new :: nodes t ->
    abs t' = <[n_name new := new]> (abs t).
  Proof.
    intros I I' Hp. unfold abs. rewrite (abs_of_perm (nodes t') (new :: nodes t)); [done|apply I'|done].
  Qed.

  (** insert = map insertion of a fresh entry, or the present entry *)
  Lemma insert_abs t n len i :
    options_ok opts -> ht_inv t -> len <= length n -> i <= len ->
    exists t' x b, ht_insert e0 hc opts n i (compute_hashes hc n len) t = Some (t', (x, b)) /\
      ht_inv t' /\ n_name x = take i n /\ abs t' !! take i n = Some x /\
      match abs t !! take i n with
      | Some y => b = false /\ t' = t /\ x = y
      | None => b = true /\ n_parent x = None /\ n_children x = [] /\ n_tables x = e0 /\
                abs t' = <[take i n := x]> (abs t)
      end.
  Proof.
    intros O I H1 H2. unfold ht_insert. rewrite compute_hashes_lookup by done. rewrite N.eqb_refl.
    destruct (abs t !! take i n) as [y|] eqn:A.
    - exists t, y, false. unfold find_or_insert.
      rewrite (chain_find_abs t n i I) by (apply O || lia). rewrite A.
      split_and!; try done.
      apply abs_of_lookup in A as [_ ?]; [done|apply I].
    - destruct (foi_insert t n i O I ltac:(lia) A) as (t' & -> & I' & Hp).
      eexists t', _, true. split; [done|]. split; [done|]. split; [done|].
      pose proof (abs_insert t t' _ I I' Hp) as Ha. simpl in Ha. rewrite Ha.
      rewrite lookup_insert. done.
  Qed.

  (** ** writing through a pointer *)
  Lemma map_map_concat {A B} (f : A -> B) (l : list (list A)) : concat (map (map f) l) = map f (concat l).
  Proof. induction l; simpl; [done|]. by rewrite map_app, IHl. Qed.

  Lemma write_inv t n f : ht_inv t ->
    (forall x, n_hash (f x) = n_hash x /\ n_name (f x) = n_name x) ->
    ht_inv (write n f t) /\ abs (write n f t) = alter f n (abs t) /\
    n_buckets (write n f t) = n_buckets t.
  Proof.
    intros I Hf.
    set (g := fun x : node => if name_eqb n (n_name x) then f x else x).
    assert (forall x, n_hash (g x) = n_hash x /\ n_name (g x) = n_name x) as Hg.
    { intros x. unfold g. destruct (name_eqb n (n_name x)); [apply Hf|done]. }
    assert (nodes (write n f t) = map g (nodes t)) as Hn by apply map_map_concat.
    assert (n_name <$> nodes (write n f t) = n_name <$> nodes t) as Hnames.
    { rewrite Hn. change (map g (nodes t)) with (g <$> nodes t). rewrite <- list_fmap_compose.
      apply list_fmap_ext. intros ? x ?. apply Hg. }
    assert (n_buckets (write n f t) = n_buckets t) as Hb.
    { unfold n_buckets. simpl. by rewrite map_length. }
    assert (ht_inv (write n f t)) as I'.
    { split.
      - rewrite Hb. apply I.
      - intros b chain x Hc Hx. simpl in *.
        change (map (map g) (buckets t)) with ((map g) <$> buckets t) in *.
        rewrite list_lookup_fmap in Hc. destruct (buckets t !! b) as [c|] eqn:Ec; [|done].
        simpl in Hc. simplify_eq. change (map g c) with (g <$> c) in Hx.
        apply elem_of_list_fmap in Hx as (y & Hxy & Hy).
        assert (n_hash x = n_hash y /\ n_name x = n_name y) as [-> ->] by (rewrite Hxy; apply Hg).
        rewrite (bucket_index_length _ (buckets t)) by apply fmap_length.
        by eapply I.
      - rewrite Hnames. apply I.
      - simpl. rewrite Hn, map_length. apply I.
      - rewrite Hb. apply I. }
    split_and!; [done| |done].
    apply map_eq. intros k. apply option_eq. intros x. unfold abs at 1.
    rewrite abs_of_lookup by apply I'. rewrite Hn. change (map g (nodes t)) with (g <$> nodes t).
    rewrite elem_of_list_fmap. unfold abs. split.
    - intros [(y & -> & Hy) Hk]. destruct (Hg y) as [_ Hgn]. rewrite Hgn in Hk.
      unfold g. destruct (name_eqb n (n_name y)) eqn:En.
      + apply name_eqb_eq in En. subst n k. rewrite lookup_alter.
        rewrite (proj2 (abs_of_lookup (nodes t) (n_name y) y ltac:(apply I))) by done. done.
      + apply name_eqb_neq in En. rewrite lookup_alter_ne by congruence.
        apply abs_of_lookup; [apply I|done].
    - destruct (decide (n = k)) as [->|Hne].
      + rewrite lookup_alter. destruct (abs_of (nodes t) !! k) as [y|] eqn:Ey; [|done].
        simpl. intros [= <-]. apply abs_of_lookup in Ey as [Hy <-]; [|apply I]. split.
        * exists y. split; [|done]. unfold g. by rewrite name_eqb_refl.
        * by destruct (Hf y).
      + rewrite lookup_alter_ne by done. intros Ey. apply abs_of_lookup in Ey as [Hy <-]; [|apply I].
        split; [|done]. exists x. split; [|done]. unfold g.
        destruct (name_eqb n (n_name x)) eqn:En; [|done]. apply name_eqb_eq in En. done.
  Qed.

  (** ** erase *)
  Lemma filter_abs l n : NoDup (n_name <$> l) ->
    NoDup (n_name <$> List.filter (fun y => negb (name_eqb n (n_name y))) l) /\
    abs_of (List.filter (fun y => negb (name_eqb n (n_name y))) l) = delete n (abs_of l).
  Proof.
    induction l as [|x l IH]; intros Hnd; simpl.
    { split; [constructor|]. unfold abs_of. simpl. by rewrite delete_empty. }
    simpl in Hnd. apply NoDup_cons in Hnd as [Hx Hnd]. destruct (IH Hnd) as [IH1 IH2].
    destruct (name_eqb n (n_name x)) eqn:En; simpl.
    - apply name_eqb_eq in En. subst n. split; [done|]. rewrite IH2.
      unfold abs_of at 2. simpl. rewrite delete_insert_delete. done.
    - apply name_eqb_neq in En. split.
      + apply NoDup_cons. split; [|done]. intros (y & Hy & Hin)%elem_of_list_fmap.
        apply Hx. apply elem_of_list_fmap. exists y. split; [done|].
        apply elem_of_list_In in Hin. apply filter_In in Hin as [Hin _]. by apply elem_of_list_In.
      + change (<[n_name x := x]> (abs_of (List.filter (fun y => negb (name_eqb n (n_name y))) l)) =
                delete n (<[n_name x := x]> (abs_of l))).
        rewrite IH2, delete_insert_ne by done. done.
  Qed.

  Lemma detach_concat (l : list (list node)) n : forall (i : nat) c,
    l !! i = Some c -> NoDup (n_name <$> concat l) ->
    (exists x, x ∈ c /\ n_name x = n) ->
    concat (alter (List.filter (fun y => negb (name_eqb n (n_name y)))) i l) =
    List.filter (fun y => negb (name_eqb n (n_name y))) (concat l).
  Proof.
    assert (forall k : list node, (forall x, x ∈ k -> n_name x <> n) ->
      List.filter (fun y => negb (name_eqb n (n_name y))) k = k) as Hid.
    { induction k as [|y k IH]; intros H; simpl; [done|].
      rewrite (proj2 (name_eqb_neq n (n_name y))) by (intros ->; by apply (H y); [mem|]).
      simpl. f_equal. apply IH. intros x Hx. apply H. mem. }
    induction l as [|c0 l IH]; intros i c Hi Hnd (x & Hx & Hn); [done|].
    simpl in Hnd. rewrite fmap_app in Hnd. apply NoDup_app in Hnd as (Hn1 & Hn2 & Hn3).
    destruct i as [|i]; simpl in *; rewrite List.filter_app.
    - simplify_eq. f_equal. symmetry. apply Hid. intros y Hy Hyn. apply (Hn2 (n_name x)).
      { apply elem_of_list_fmap; eauto. }
      apply elem_of_list_fmap. exists y. split; [congruence|done].
    - rewrite (Hid c0); [f_equal; eapply IH; eauto|].
      intros y Hy Hyn. apply (Hn2 (n_name x)).
      { apply elem_of_list_fmap. exists y. split; [congruence|done]. }
      apply elem_of_list_fmap. exists x. split; [done|]. by eapply concat_lookup_in.
  Qed.

  Lemma filter_length_lt n (l : list node) : NoDup (n_name <$> l) ->
    (exists x, x ∈ l /\ n_name x = n) ->
    S (length (List.filter (fun y => negb (name_eqb n (n_name y))) l)) = length l.
  Proof.
    induction l as [|y l IH]; intros Hnd (x & Hx & Hn); [mem|].
    simpl in Hnd. apply NoDup_cons in Hnd as [Hy Hnd]. simpl.
    destruct (name_eqb n (n_name y)) eqn:En; simpl.
    - apply name_eqb_eq in En. subst n. f_equal. clear IH Hx Hnd.
      induction l as [|z l IH]; [done|]. simpl in Hy. apply not_elem_of_cons in Hy as [Hy1 Hy2]. simpl.
      rewrite (proj2 (name_eqb_neq (n_name x) (n_name z))) by congruence. simpl. f_equal. by apply IH.
    - apply name_eqb_neq in En. f_equal. apply IH; [done|].
      apply elem_of_cons in Hx as [->|Hx]; [done|]. eauto.
  Qed.

  Lemma erase_abs t n x :
    options_ok opts -> ht_inv t -> abs t !! n = Some x -> n_parent x = None ->
    exists t', ht_erase e0 hc opts n t = Some t' /\ ht_inv t' /\ abs t' = delete n (abs t).
  Proof.
    intros (H0 & H1 & H2) I Hx Hp. unfold ht_erase. rewrite deref_abs, Hx, Hp by done.
    eexists. split; [reflexivity|].
    pose proof (proj1 (abs_of_lookup _ _ _ (hi_nodup t I)) Hx) as [Hin Hn].
    apply concat_in_lookup in Hin as (b & chain & Hb & Hc).
    destruct (hi_place t I b chain x Hb Hc) as [Hh Hi]. rewrite Hi.
    set (t1 := Ht (detach (buckets t) b n) (ht_size t - 1) (expand_threshold t) (shrink_threshold t)).
    assert (nodes t1 = List.filter (fun y => negb (name_eqb n (n_name y))) (nodes t)) as Hn1.
    { unfold nodes. simpl. eapply detach_concat; [exact Hb|apply I|]. eauto. }
    assert (n_buckets t1 = n_buckets t) as Hb1.
    { unfold n_buckets. simpl. unfold detach. by rewrite alter_length. }
    destruct (filter_abs (nodes t) n (hi_nodup t I)) as [Nd Ab].
    assert (place_ok (buckets t1)) as Pl.
    { intros b' chain' y Hb' Hy. simpl in *. unfold detach in *.
      rewrite (bucket_index_length _ (buckets t)) by apply alter_length.
      destruct (decide (b' = b)) as [->|Hne].
      - rewrite list_lookup_alter, Hb in Hb'. simpl in Hb'. simplify_eq.
        apply elem_of_list_In, filter_In in Hy as [Hy _]. apply elem_of_list_In in Hy.
        by eapply I.
      - rewrite list_lookup_alter_ne in Hb' by done. by eapply I. }
    assert (ht_inv t1) as I1.
    { split; [rewrite Hb1; apply I|done|by rewrite Hn1| |rewrite Hb1; apply I].
      rewrite Hn1. simpl. rewrite (hi_size t I).
      rewrite <- (filter_length_lt n (nodes t)); [lia|apply I|].
      exists x. split; [|done]. by eapply concat_lookup_in. }
    assert (abs t1 = delete n (abs t)) as Ha1 by (unfold abs; by rewrite Hn1).
    fold t1.
    destruct (ht_size t1 <? shrink_threshold t1)%N; [|done].
    destruct (resize_ok t1 (N.max (o_min opts) (o_shrink opts (n_buckets t1))))
      as (Q1 & Q2 & Q3 & Q4 & Q5); [done|lia|apply I1|].
    assert (ht_inv (ht_resize opts (N.max (o_min opts) (o_shrink opts (n_buckets t1))) t1)) as I2.
    { split; [rewrite Q3; lia|done|rewrite Q1; apply I1|rewrite Q4, Q1; apply I1|].
      rewrite Q3. destruct Q5 as [[Q5 ->]|Q5]; [rewrite <- Q5; apply I1|done]. }
    split; [done|]. rewrite <- Ha1. unfold abs.
    apply abs_of_perm; [apply I2|done].
  Qed.

  Lemma new_inv : options_ok opts -> ht_inv (ht_new opts) /\ abs (ht_new opts) = ∅.
  Proof.
    intros (H0 & H1 & H2). unfold ht_new, compute_thresholds, abs, nodes. simpl.
    assert (concat (replicate (N.to_nat (o_initial opts)) ([] : list node)) = []) as Hc
      by apply concat_replicate_nil.
    split; [|by rewrite Hc].
    split; unfold n_buckets, nodes; simpl; rewrite ?Hc.
    - rewrite replicate_length. lia.
    - intros b chain x Hb Hx. apply lookup_replicate in Hb as [-> _]. mem.
    - constructor.
    - done.
    - done.
  Qed.
End nt.
