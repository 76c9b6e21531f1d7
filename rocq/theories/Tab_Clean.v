From stdpp Require Import gmap.
From Verif Require Import Lib Name_Model Name_Proof Packet_Model Nt_Model Nt_Spec Nt_Tree Tree_Model Tree_Proof Tab_Model Tab_Spec Tab_At Tab_Fib Tab_Pit Tab_Pit2 Tab_Meas Tab_Sc.

Lemma erase_one_eq (n : name) (t : gmap name nte) :
  t_erase_if_empty has_tables n false t = if t_is_empty has_tables n t then delete n t else t.
Proof. unfold t_erase_if_empty. simpl. by destruct (t_is_empty has_tables n t). Qed.

Definition dead (t : gmap name nte) (k : name) : Prop :=
  is_Some (t !! k) /\ forall q e, t !! q = Some e -> k `prefix_of` q -> has_tables e = false.

Lemma sweep l : forall t, closed t -> StronglySorted not_shorter l -> (forall k, dead t k -> k ∈ l) ->
  let t' := foldl (fun t n => t_erase_if_empty has_tables n false t) t l in
  closed t' /\ (forall k, ~ dead t' k) /\
  (forall k e, t' !! k = Some e -> t !! k = Some e) /\
  (forall k e, t !! k = Some e -> has_tables e = true -> t' !! k = Some e).
Proof.
  induction l as [|n l IH]; intros t C Hs Hd; cbn [foldl].
  - split; [done|]. split; [|done]. intros k Hk%Hd. by apply elem_of_nil in Hk.
  - inversion Hs as [|? ? Hs' Hall]; subst. rewrite erase_one_eq. destruct (t_is_empty has_tables n t) eqn:Ee.
    + apply t_is_empty_iff in Ee as [Hn He]; [|done].
      assert (C1 : closed (delete n t)).
      { apply delete_leaf_closed; [done|]. intros q e Hq Hp. by apply (He q e). }
      destruct (IH (delete n t) C1 Hs') as (H1 & H2 & H3 & H4).
      { intros k [[e Hk] Hall']. apply lookup_delete_Some in Hk as [Hne Hk].
        assert (Hin : k ∈ n :: l).
        { apply Hd. split; [by eexists|]. intros q e' Hq Hkq. destruct (decide (q = n)) as [->|Hqn].
          - by apply (He n e').
          - apply (Hall' q e'); [by rewrite lookup_delete_ne by done|done]. }
        apply elem_of_cons in Hin as [->|?]; done. }
      split; [done|]. split; [done|]. split.
      * intros k e Hk%H3. by apply lookup_delete_Some in Hk as [_ ?].
      * intros k e Hk Ht. apply H4; [|done]. rewrite lookup_delete_ne; [done|]. intros <-.
        destruct (He n e Hk) as [_ Hx]; [done|]. congruence.
    + destruct (IH t C Hs') as (H1 & H2 & H3 & H4); [|done].
      intros k Hk. specialize (Hd k Hk) as Hin. apply elem_of_cons in Hin as [->|?]; [|done]. exfalso.
      destruct Hk as [[e Hn] Hk]. unfold t_is_empty in Ee. rewrite Hn in Ee. rewrite (Hk n e Hn) in Ee by done. simpl in Ee.
      apply negb_false_iff in Ee. apply (t_has_children_iff has_tables) in Ee as (c & ec & Hc).
      assert (Hdc : dead t (n ++ [c])).
      { split; [by eexists|]. intros q e' Hq Hp. apply (Hk q e'); [done|]. transitivity (n ++ [c]); [by exists [c]|done]. }
      apply Hd, elem_of_cons in Hdc as [Hx|Hx].
      * apply (f_equal length) in Hx. rewrite app_length in Hx. simpl in Hx. lia.
      * rewrite Forall_forall in Hall. specialize (Hall _ Hx). unfold not_shorter in Hall. rewrite app_length in Hall. simpl in Hall. lia.
Qed.

Lemma longest_first_sorted l : StronglySorted not_shorter (longest_first l) /\ longest_first l ≡ₚ l.
Proof.
  unfold longest_first. split.
  - apply StronglySorted_merge_sort.
    + intros a b c. unfold not_shorter. lia.
    + intros a b. unfold not_shorter. lia.
  - apply merge_sort_Permutation.
Qed.

Lemma counts_sub {K V W} `{EqDecision K} (f : K -> option V) (g : K -> option W) (R : list K) k :
  counts f k -> NoDup R -> (forall x, x ∈ R <-> is_Some (f x) /\ ~ is_Some (g x)) ->
  (forall x, is_Some (g x) -> is_Some (f x)) -> (forall x, is_Some (g x) \/ ~ is_Some (g x)) ->
  counts g (k - length R) /\ length R <= k.
Proof.
  intros (l & Hn & Hl & Hx) HR HRx Hsub Hdec.
  set (l2 := List.filter (fun x => negb (bool_decide (x ∈ R))) l).
  assert (Hl2 : NoDup l2) by by apply NoDup_list_filter.
  assert (Hin2 : forall x, x ∈ l2 <-> is_Some (g x)).
  { intros x. unfold l2. rewrite elem_of_list_In, filter_In, <- elem_of_list_In, negb_true_iff, bool_decide_eq_false.
    rewrite Hx, HRx. destruct (Hdec x); split.
    - done.
    - intros _. split; [by apply Hsub|]. tauto.
    - intros [? ?]. exfalso. tauto.
    - done. }
  assert (Hperm : l ≡ₚ R ++ l2).
  { apply NoDup_Permutation; [done| |].
    - apply NoDup_app. split; [done|]. split; [|done]. intros x [_ ?]%HRx ?%Hin2. done.
    - intros x. rewrite elem_of_app, HRx, Hin2, Hx. destruct (Hdec x); [|tauto]. split; [tauto|]. intros _. by apply Hsub. }
  apply Permutation_length in Hperm. rewrite app_length in Hperm. split; [|lia].
  exists l2. split; [done|]. split; [lia|done].
Qed.

Definition fib_without (f : N) (fe : fib_entry) : option fib_entry :=
  match remove_nexthop f (fe_nexthops fe) with
  | None => Some fe
  | Some [] => None
  | Some l => Some (FibEntry (fe_prefix fe) l)
  end.
Lemma cleanup_fib f e : e_fib (cleanup_nte f e) = match e_fib e with Some fe => fib_without f fe | None => None end.
Proof.
  unfold cleanup_nte, fib_without. destruct (e_fib e) as [fe|] eqn:E; [|done].
  destruct (remove_nexthop f (fe_nexthops fe)) as [[|h l]|]; done.
Qed.
Lemma cleanup_pit f e : e_pit (cleanup_nte f e) = map (delete_in_out f) (e_pit e).
Proof.
  unfold cleanup_nte. destruct (e_fib e) as [fe|] eqn:E; [|done].
  destruct (remove_nexthop f (fe_nexthops fe)) as [[|h l]|]; done.
Qed.
Lemma cleanup_meas f e : e_meas (cleanup_nte f e) = e_meas e.
Proof.
  unfold cleanup_nte. destruct (e_fib e) as [fe|] eqn:E; [|done].
  destruct (remove_nexthop f (fe_nexthops fe)) as [[|h l]|]; done.
Qed.
Lemma cleanup_sc f e : e_sc (cleanup_nte f e) = e_sc e.
Proof.
  unfold cleanup_nte. destruct (e_fib e) as [fe|] eqn:E; [|done].
  destruct (remove_nexthop f (fe_nexthops fe)) as [[|h l]|]; done.
Qed.

Lemma dead_empty t k : closed t -> t_is_empty has_tables k t = true -> dead t k.
Proof.
  intros C [Hk He]%t_is_empty_iff; [|done]. split; [done|]. intros q e Hq Hp. by apply (He q e).
Qed.

Lemma list_filter_fst_in {A B} (P : A * B -> bool) (l : list (A * B)) x : x ∈ (List.filter P l).*1 -> x ∈ l.*1.
Proof.
  intros (y & -> & Hy)%elem_of_list_fmap. apply elem_of_list_In, filter_In in Hy as [Hy _].
  apply elem_of_list_fmap_1. by apply elem_of_list_In.
Qed.
Lemma NoDup_filter_fst {A B} (P : A * B -> bool) (l : list (A * B)) : NoDup l.*1 -> NoDup (List.filter P l).*1.
Proof.
  induction l as [|x l IH]; intros Hn; [constructor|]. change ((x :: l).*1) with (x.1 :: l.*1) in Hn.
  apply NoDup_cons in Hn as [Hx Hn]. simpl. destruct (P x); [|auto].
  change ((x :: List.filter P l).*1) with (x.1 :: (List.filter P l).*1). constructor; [|auto].
  intros H. by apply Hx, (list_filter_fst_in P).
Qed.

Lemma cleanup_ok f T : tree_ok T -> fib_ok T ->
  exists T', cleanup_on_face_removal f T = Some T' /\ tree_ok T' /\ fib_ok T' /\
    (forall n, att T' n = cleanup_nte f (att T n)) /\
    (forall n, t_is_empty has_tables n (tr T') = false) /\
    pit_n T' = pit_n T /\ sc_n T' = sc_n T /\ meas_n T' = meas_n T /\ now T' = now T.
Proof.
  intros Ht [F1 F2]. unfold cleanup_on_face_removal.
  set (t1 := cleanup_nte f <$> tr T). set (me := omap _ (map_to_list t1)).
  assert (Hl1 : forall k, t1 !! k = cleanup_nte f <$> tr T !! k) by (intros k; apply lookup_fmap).
  assert (C1 : closed t1).
  { eapply closed_ext; [|exact (tk_closed _ Ht)]. intros k. by rewrite Hl1, fmap_is_Some. }
  destruct (longest_first_sorted me) as [Hs Hp].
  destruct (sweep (longest_first me) t1 C1 Hs) as (C2 & Hnd & Hsub & Hkeep).
  { intros k [[e Hk] Hd]. rewrite Hp. apply elem_of_list_omap. exists (k, e). split; [by apply elem_of_map_to_list|].
    by rewrite (Hd k e Hk). }
  set (t2 := foldl _ t1 (longest_first me)) in *.
  assert (Hnone : forall n, t_is_empty has_tables n t2 = false).
  { intros n. apply not_true_iff_false. intros H. apply (Hnd n). by apply dead_empty. }
  assert (existsb (fun n => t_is_empty has_tables n t2) (map fst (map_to_list t2)) = false) as ->.
  { apply not_true_iff_false. intros (n & _ & H)%existsb_exists. rewrite Hnone in H. done. }
  eexists. split; [done|]. match goal with |- tree_ok ?X /\ _ => set (T' := X) end.
  assert (Hatt : forall n, att T' n = cleanup_nte f (att T n)).
  { intros n. unfold att. change (tr T') with t2. destruct (tr T !! n) as [e|] eqn:E; simpl.
    - assert (E1 : t1 !! n = Some (cleanup_nte f e)) by by rewrite Hl1, E.
      destruct (has_tables (cleanup_nte f e)) eqn:Eh; [by rewrite (Hkeep _ _ E1 Eh)|].
      destruct (t2 !! n) as [e'|] eqn:E2; [|by apply has_tables_empty in Eh as ->].
      apply Hsub in E2. simpl. congruence.
    - destruct (t2 !! n) as [e'|] eqn:E2; [|done]. apply Hsub in E2. rewrite Hl1, E in E2. done. }
  split.
  { split; [done|]. intros n [e Hn]. apply Ht. change (tr T') with t2 in Hn. apply Hsub in Hn. rewrite Hl1 in Hn.
    destruct (tr T !! n) eqn:E; [|done]. by exists n0. }
  split; [|done].
  assert (Hf : forall n, fib_at T' n = match fib_at T n with Some fe => fib_without f fe | None => None end).
  { intros n. by rewrite !fib_at_att, Hatt, cleanup_fib. }
  split.
  - intros n fe. rewrite Hf. destruct (fib_at T n) as [fe0|] eqn:E; [|done]. destruct (F1 n fe0 E) as [Hpre Hok].
    unfold fib_without. pose proof (remove_nexthop_ok f _ Hok) as Hr.
    destruct (remove_nexthop f (fe_nexthops fe0)) as [[|h l]|]; [done| |by intros [= <-]].
    destruct Hr as (_ & Hok' & _). intros [= <-]. done.
  - destruct F2 as (k & Hc & Hk).
    set (R := (List.filter (fun '(_, e) => match e_fib e, e_fib (cleanup_nte f e) with Some _, None => true | _, _ => false end) (map_to_list (tr T))).*1).
    destruct (counts_sub (fun n => fib_at T n) (fun n => fib_at T' n) R k) as [Hc' Hle]; [done| | | | |].
    + unfold R. apply NoDup_filter_fst. apply NoDup_fst_map_to_list.
    + intros n. cbv beta. rewrite Hf. unfold R. split.
      * intros ([n' e] & -> & Hx)%elem_of_list_fmap. apply elem_of_list_In, filter_In in Hx as [Hin Hx].
        apply elem_of_list_In, elem_of_map_to_list in Hin. simpl. unfold fib_find. rewrite Hin. rewrite cleanup_fib in Hx.
        destruct (e_fib e) as [fe|]; [|done]. split; [done|]. destruct (fib_without f fe); [done|]. by intros [].
      * intros [[fe Hfe] Hno]. apply elem_of_list_fmap. rewrite Hfe in Hno. unfold fib_find in Hfe. destruct (tr T !! n) as [e|] eqn:E; [|done].
        exists (n, e). split; [done|]. apply elem_of_list_In, filter_In. split; [by apply elem_of_list_In, elem_of_map_to_list|].
        rewrite cleanup_fib, Hfe. destruct (fib_without f fe); [exfalso; by apply Hno|done].
    + intros n. cbv beta. rewrite Hf. destruct (fib_at T n); [done|]. by intros [].
    + intros n. cbv beta. destruct (fib_at T' n); [left; eauto|right; by intros []].
    + exists (k - length R). split; [done|]. change (fib_n T') with ((fib_n T + (U64 - N.of_nat (cleanup_removed f T) mod U64)) mod U64)%N.
      rewrite Hk. assert (HR : cleanup_removed f T = length R) by (unfold cleanup_removed, R; by rewrite fmap_length). rewrite HR.
      unfold U64. rewrite N.add_mod_idemp_l by done.
      assert (Hm : (N.of_nat (length R) mod 2 ^ 64 <= N.of_nat (length R))%N) by (apply N.mod_le; done).
      assert (Hm2 : (N.of_nat (length R) mod 2 ^ 64 < 2 ^ 64)%N) by (apply N.mod_lt; done).
      pose proof (N.div_mod (N.of_nat (length R)) (2 ^ 64) ltac:(done)) as Hdm.
      set (q := (N.of_nat (length R) / 2 ^ 64)%N) in *. set (r := (N.of_nat (length R) mod 2 ^ 64)%N) in *.
      replace (N.of_nat k + (2 ^ 64 - r))%N with (N.of_nat (k - length R) + (q + 1) * 2 ^ 64)%N by lia.
      by rewrite N.mod_add by done.
Qed.

Lemma key_find_map k g l : (forall pe, pe_key (g pe) = pe_key pe) -> key_find k (map g l) = g <$> key_find k l.
Proof.
  intros Hg. unfold key_find. induction l as [|x l IH]; simpl; [done|]. rewrite Hg. by destruct (keyb k (pe_key x)).
Qed.
Lemma pe_ok_delete t f pe : pe_ok t pe -> pe_ok t (delete_in_out f pe).
Proof.
  intros [H1 H2 H3 H4]. destruct (delete_in_ok f _ H1) as (I1 & _ & I3). destruct (delete_out_ok f _ H2) as (O1 & _ & O3).
  split; simpl; [done|done| |]; intros r Hr; [apply H3; auto|apply H4; auto].
Qed.
(** mapping all PIT entries *)
Lemma pit_inv_map t t' g g' c : pit_inv t g c ->
  (forall n, exists h, g' n = map h (g n) /\ (forall pe, pe_key (h pe) = pe_key pe) /\ (forall pe, pe_ok t pe -> pe_ok t' (h pe))) ->
  pit_inv t' g' c.
Proof.
  intros [H1 H2 H3 H4] Hg. split.
  - intros n pe. destruct (Hg n) as (h & -> & Hk & Hh). intros (pe0 & <- & Hin)%elem_of_list_In%in_map_iff. rewrite Hk. by apply H1, elem_of_list_In.
  - intros n. destruct (Hg n) as (h & -> & Hk & Hh). assert (pe_key <$> map h (g n) = pe_key <$> g n) as ->; [|apply H2].
    induction (g n) as [|x l IH]; [done|]. change (map h (x :: l)) with (h x :: map h l).
    change (pe_key <$> ?y :: ?z) with (pe_key y :: (pe_key <$> z)). by rewrite Hk, IH.
  - intros n pe. destruct (Hg n) as (h & -> & Hk & Hh). intros (pe0 & <- & Hin)%elem_of_list_In%in_map_iff. apply elem_of_list_In in Hin. apply Hh. by apply (H3 n).
  - eapply counter_ext; [|exact H4]. intros k. unfold pview. destruct (Hg (pit_nte (pk_name k))) as (h & -> & Hk & Hh).
    rewrite key_find_map by apply Hk. by rewrite fmap_is_Some.
Qed.
