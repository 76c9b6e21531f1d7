(** The tree of RIB entries. *)
From stdpp Require Import gmap.
From Verif Require Import Lib Name_Model Name_Proof Tab_Model Rib_Model Rib_Spec.

Notation rmap := (gmap name rib_entry).

Lemma prefix_take i (n : name) : take i n `prefix_of` n.
Proof. exists (drop i n). by rewrite take_drop. Qed.
Lemma prefix_weak (a b n : name) : a `prefix_of` n -> b `prefix_of` n -> (length a <= length b)%nat -> a `prefix_of` b.
Proof.
  intros [k ->] [j E] Hl. exists (take (length b - length a) k).
  apply (f_equal (take (length b))) in E. rewrite take_app in E.
  by rewrite take_app_ge in E by lia.
Qed.
Lemma take_proper (n p : name) : proper_prefix p n <-> exists i, (i < length n)%nat /\ p = take i n.
Proof.
  split.
  - intros [[k ->] Hne]. exists (length p). rewrite app_length, take_app. split; [|done].
    destruct k; simpl; [by rewrite app_nil_r in Hne|lia].
  - intros (i & Hi & ->). split; [apply prefix_take|]. intros E. apply (f_equal length) in E. rewrite take_length in E. lia.
Qed.
Lemma proper_trans a b c : proper_prefix a b -> proper_prefix b c -> proper_prefix a c.
Proof.
  intros [H1 N1] [H2 N2]. split; [by transitivity b|]. intros ->. apply N1.
  apply (anti_symm prefix); done.
Qed.
Lemma proper_len a b : proper_prefix a b -> (length a < length b)%nat.
Proof. intros (i & Hi & ->)%take_proper. rewrite take_length. lia. Qed.
Lemma proper_irrefl a : ~ proper_prefix a a.
Proof. by intros [_ H]. Qed.
Lemma prefix_le_proper a b c : a `prefix_of` b -> proper_prefix b c -> proper_prefix a c.
Proof.
  intros H1 [H2 N2]. split; [by transitivity b|]. intros ->. apply N2. by apply (anti_symm prefix).
Qed.
Lemma proper_le_prefix a b c : proper_prefix a b -> b `prefix_of` c -> proper_prefix a c.
Proof.
  intros [H1 N1] H2. split; [by transitivity b|]. intros ->. apply N1. by apply (anti_symm prefix).
Qed.
(** two prefixes of one name are comparable *)
Lemma prefix_linear (a b n : name) : a `prefix_of` n -> b `prefix_of` n -> a `prefix_of` b \/ b `prefix_of` a.
Proof. intros Ha Hb. destruct (decide (length a <= length b)%nat); [left; by apply (prefix_weak a b n)|right; apply (prefix_weak b a n); [done..|lia]]. Qed.
Lemma prefix_cases (a b n : name) : a `prefix_of` n -> b `prefix_of` n -> a = b \/ proper_prefix a b \/ proper_prefix b a.
Proof.
  intros Ha Hb. destruct (decide (a = b)) as [|Hne]; [by left|right].
  destruct (prefix_linear a b n Ha Hb) as [H|H]; [left|right]; by split.
Qed.

Definition dom_nearest (m : rmap) (n p : name) : Prop :=
  is_Some (m !! p) /\ proper_prefix p n /\ forall q, is_Some (m !! q) -> proper_prefix q n -> q `prefix_of` p.
Lemma find_parent_at_spec m n i :
  (i <= length n)%nat ->
  match find_parent_at m n i with
  | Some p => is_Some (m !! p) /\ (exists j, (j < i)%nat /\ p = take j n) /\ forall j, (j < i)%nat -> is_Some (m !! take j n) -> take j n `prefix_of` p
  | None => forall j, (j < i)%nat -> m !! take j n = None
  end.
Proof.
  induction i as [|i IH]; intros Hi; simpl; [intros j Hj; lia|].
  destruct (m !! take i n) as [e|] eqn:E.
  - split; [by eexists|]. split; [by exists i; split; [lia|]|]. intros j Hj _.
    replace (take j n) with (take j (take i n)); [apply prefix_take|]. rewrite take_take. f_equal. lia.
  - specialize (IH ltac:(lia)). destruct (find_parent_at m n i) as [p|].
    + destruct IH as (H1 & (j & Hj & ->) & H3). split; [done|]. split; [exists j; split; [lia|done]|].
      intros k Hk Hs. destruct (decide (k = i)) as [->|]; [by rewrite E in Hs; destruct Hs|]. apply H3; [lia|done].
    + intros j Hj. destruct (decide (j = i)) as [->|]; [done|]. apply IH. lia.
Qed.
Lemma find_parent_some m n p : find_parent m n = Some p <-> dom_nearest m n p.
Proof.
  unfold find_parent. pose proof (find_parent_at_spec m n (length n) ltac:(lia)) as H.
  destruct (find_parent_at m n (length n)) as [q|].
  - destruct H as (H1 & H2 & H3). assert (Hn : dom_nearest m n q).
    { split; [done|]. split; [by apply take_proper|]. intros x Hx (j & Hj & ->)%take_proper. by apply H3. }
    split; [by intros [= <-]|]. intros (K1 & K2 & K3). destruct Hn as (L1 & L2 & L3). f_equal.
    apply (anti_symm prefix); [by apply K3|by apply L3].
  - split; [done|]. intros ([e He] & (j & Hj & ->)%take_proper & _). by rewrite H in He.
Qed.
Lemma find_parent_none m n : find_parent m n = None <-> forall q, proper_prefix q n -> m !! q = None.
Proof.
  split.
  - unfold find_parent. pose proof (find_parent_at_spec m n (length n) ltac:(lia)) as H.
    destruct (find_parent_at m n (length n)) as [q|]; [done|]. intros _ x (j & Hj & ->)%take_proper. by apply H.
  - intros H. destruct (find_parent m n) as [p|] eqn:E; [|done]. apply find_parent_some in E as ([e He] & Hp & _).
    by rewrite H in He.
Qed.
Lemma find_parent_dom m m' n : (forall x, is_Some (m !! x) <-> is_Some (m' !! x)) -> find_parent m n = find_parent m' n.
Proof.
  intros Hd. unfold find_parent. induction (length n) as [|i IH]; [done|]. simpl.
  specialize (Hd (take i n)). destruct (m !! take i n), (m' !! take i n); [done| | |done]; destruct Hd as [H1 H2];
    [destruct H1; [by eexists|done]|destruct H2; [by eexists|done]].
Qed.
Lemma find_parent_proper m n p : find_parent m n = Some p -> proper_prefix p n.
Proof. by intros (_ & H & _)%find_parent_some. Qed.

Lemma find_parent_insert m n e x :
  m !! n = None ->
  find_parent (<[n := e]> m) x =
    (if bool_decide (proper_prefix n x /\ find_parent m x = find_parent m n) then Some n else find_parent m x).
Proof.
  intros Hn. assert (Hi : forall q, is_Some (<[n := e]> m !! q) <-> q = n \/ is_Some (m !! q)).
  { intros q. destruct (decide (q = n)) as [->|Hne]; [rewrite lookup_insert; naive_solver|rewrite lookup_insert_ne by done; naive_solver]. }
  case_bool_decide as Hd.
  - destruct Hd as [Hp He]. apply find_parent_some. split; [by apply Hi; left|]. split; [done|].
    intros q [->|Hq]%Hi Hqx; [done|]. destruct (prefix_cases q n x) as [->|[H|H]]; [apply Hqx|apply Hp|done|apply H|].
    exfalso. destruct (find_parent m x) as [p|] eqn:Ex.
    + apply find_parent_some in Ex as (_ & _ & H3). specialize (H3 q Hq Hqx).
      assert (proper_prefix p n) as Hpn by (by eapply find_parent_proper).
      assert (proper_prefix q q); [|by eapply proper_irrefl]. eapply prefix_le_proper; [done|]. by eapply proper_trans.
    + apply find_parent_none with (q := q) in Ex; [|done]. rewrite Ex in Hq. by destruct Hq.
  - destruct (find_parent m x) as [p|] eqn:Ex.
    + apply find_parent_some. apply find_parent_some in Ex as Hx. destruct Hx as (H1 & H2 & H3).
      split; [by apply Hi; right|]. split; [done|]. intros q [->|Hq]%Hi Hqx; [|by apply H3].
      destruct (prefix_cases n p x) as [->|[H|H]]; [apply Hqx|apply H2|done|apply H|].
      destruct Hd. split; [done|]. symmetry. apply find_parent_some. split; [done|]. split; [done|].
      intros q Hq Hqn. apply H3; [done|]. by eapply proper_trans.
    + apply find_parent_none. intros q Hqx. destruct (decide (q = n)) as [->|Hne].
      * destruct Hd. split; [done|]. symmetry. apply find_parent_none. intros q Hq. eapply find_parent_none; [done|].
        by eapply proper_trans.
      * rewrite lookup_insert_ne by done. by eapply find_parent_none.
Qed.
Lemma find_parent_delete m n x :
  is_Some (m !! n) ->
  find_parent (delete n m) x = (if bool_decide (find_parent m x = Some n) then find_parent m n else find_parent m x).
Proof.
  intros Hn. assert (Hi : forall q, is_Some (delete n m !! q) <-> q <> n /\ is_Some (m !! q)).
  { intros q. rewrite lookup_delete_is_Some. naive_solver. }
  case_bool_decide as Hd.
  - apply find_parent_some in Hd as (_ & Hnx & H3).
    destruct (find_parent m n) as [p|] eqn:En.
    + apply find_parent_some. apply find_parent_some in En as (K1 & K2 & K3). split.
      { apply Hi. split; [|done]. intros ->. by eapply proper_irrefl. }
      split; [by eapply proper_trans|]. intros q [Hne Hq]%Hi Hqx. apply K3; [done|]. split; [by apply H3|done].
    + apply find_parent_none. intros q Hqx. destruct (delete n m !! q) as [e|] eqn:E; [|done].
      assert (is_Some (delete n m !! q)) as [Hne Hq]%Hi by by eexists.
      eapply find_parent_none with (q := q) in En; [by rewrite En in Hq; destruct Hq|]. split; [by apply H3|done].
  - destruct (find_parent m x) as [p|] eqn:Ex.
    + apply find_parent_some. apply find_parent_some in Ex as (H1 & H2 & H3). split; [apply Hi; naive_solver|].
      split; [done|]. intros q [_ Hq]%Hi Hqx. by apply H3.
    + apply find_parent_none. intros q Hqx. destruct (delete n m !! q) as [e|] eqn:E; [|done].
      assert (is_Some (delete n m !! q)) as [Hne Hq]%Hi by by eexists.
      eapply find_parent_none with (q := q) in Ex; [by rewrite Ex in Hq; destruct Hq|done].
Qed.

(** * Descendants *)
Fixpoint sorted_names (l : list name) : Prop :=
  match l with [] => True | x :: l' => Forall (fun y => name_cmp x y = Lt) l' /\ sorted_names l' end.
Lemma ins_name_in n l x : x ∈ ins_name n l <-> x = n \/ x ∈ l.
Proof.
  induction l as [|y l IH]; simpl; [rewrite elem_of_list_singleton, elem_of_nil; tauto|].
  destruct (name_cmp n y); rewrite ?elem_of_cons, ?IH; tauto.
Qed.
Lemma ins_name_sorted n l : n ∉ l -> sorted_names l -> sorted_names (ins_name n l).
Proof.
  induction l as [|y l IH]; simpl; [by constructor|]. rewrite not_elem_of_cons. intros [Hne Hni] [Hf Hs].
  destruct (name_cmp n y) eqn:E; simpl.
  - apply name_cmp_ok in E. done.
  - split; [|done]. constructor; [done|]. eapply Forall_impl; [exact Hf|]. intros z Hz. by eapply (cmp_trans name_cmp_ok).
  - split; [|by apply IH]. apply Forall_forall. intros z [->|Hz]%ins_name_in.
    + by apply (cmp_gt_lt name_cmp_ok).
    + rewrite Forall_forall in Hf. by apply Hf.
Qed.
Lemma rib_names_in m x : x ∈ rib_names m <-> is_Some (m !! x).
Proof.
  unfold rib_names. transitivity (x ∈ map fst (map_to_list m)).
  - induction (map fst (map_to_list m)) as [|y l IH]; simpl; [done|]. by rewrite ins_name_in, IH, elem_of_cons.
  - rewrite elem_of_list_fmap. split.
    + intros ([y e] & -> & H). apply elem_of_map_to_list in H. by eexists.
    + intros [e He]. exists (x, e). split; [done|]. by apply elem_of_map_to_list.
Qed.
Lemma rib_names_sorted m : sorted_names (rib_names m).
Proof.
  unfold rib_names. pose proof (NoDup_fst_map_to_list m) as Hnd. fold (map (fst (A:=name) (B:=rib_entry)) (map_to_list m)) in Hnd.
  change (fst <$> map_to_list m) with (map fst (map_to_list m)) in Hnd.
  induction (map fst (map_to_list m)) as [|y l IH]; simpl; [done|]. apply NoDup_cons in Hnd as [Hy Hnd].
  apply ins_name_sorted; [|by apply IH]. intros H. apply Hy. clear -H.
  induction l as [|z l IH]; simpl in *; [done|]. apply ins_name_in in H as [->|H]; set_solver.
Qed.
Lemma sorted_names_nodup l : sorted_names l -> NoDup l.
Proof.
  induction l as [|x l IH]; simpl; [constructor|]. intros [Hf Hs]. constructor; [|by apply IH].
  intros H. rewrite Forall_forall in Hf. specialize (Hf _ H). by rewrite (cmp_refl name_cmp_ok) in Hf.
Qed.
(** in canonical order the extensions of a name come directly after it *)
Lemma prefix_convex (p x y : name) : name_cmp p x = Lt -> name_cmp x y = Lt -> p `prefix_of` y -> p `prefix_of` x.
Proof.
  intros H1 H2 [k ->]. revert x H1 H2. induction p as [|a p IH]; intros x H1 H2; [by apply prefix_nil|].
  destruct x as [|b x]; [done|]. unfold name_cmp in *. simpl in *.
  destruct (comp_cmp a b) eqn:E; [| |done].
  - apply comp_cmp_ok in E as <-. rewrite (cmp_refl comp_cmp_ok) in H2. apply prefix_cons. by apply IH.
  - rewrite (cmp_sym comp_cmp_ok a b), E in H2. done.
Qed.
Lemma take_while_all (p : name) l :
  sorted_names l -> Forall (fun y => name_cmp p y = Lt) l ->
  take_while (name_prefixb p) l = List.filter (name_prefixb p) l.
Proof.
  induction l as [|x l IH]; simpl; [done|]. intros [Hf Hs] [Hx Hl]%Forall_cons.
  destruct (name_prefixb p x) eqn:E; [by rewrite IH|].
  symmetry. apply elem_of_nil_inv. intros y Hy. apply elem_of_list_In, filter_In in Hy as [Hy Hp].
  apply elem_of_list_In in Hy. apply name_prefixb_false in E. apply name_prefixb_prefix in Hp. apply E.
  rewrite Forall_forall in Hf. eapply prefix_convex; [done|by apply Hf|done].
Qed.
Lemma after_sorted n l :
  sorted_names l -> n ∈ l -> sorted_names (after n l) /\ Forall (fun y => name_cmp n y = Lt) (after n l) /\
  forall y, y ∈ after n l <-> y ∈ l /\ name_cmp n y = Lt.
Proof.
  induction l as [|x l IH]; simpl; [by intros _ H%elem_of_nil|]. intros [Hf Hs] Hn.
  rewrite Forall_forall in Hf. destruct (name_eqb x n) eqn:E.
  - apply name_eqb_eq in E as ->. split; [done|]. split; [by apply Forall_forall|]. intros y. rewrite elem_of_cons.
    split; [intros Hy; split; [by right|by apply Hf]|]. intros [[->|Hy] Hlt]; [by rewrite (cmp_refl name_cmp_ok) in Hlt|done].
  - apply name_eqb_neq in E. apply elem_of_cons in Hn as [->|Hn]; [done|]. destruct (IH Hs Hn) as (H1 & H2 & H3).
    split; [done|]. split; [done|]. intros y. rewrite H3, elem_of_cons. split; [naive_solver|]. intros [[->|Hy] Hlt]; [|done].
    specialize (Hf _ Hn). apply (cmp_lt_gt name_cmp_ok) in Hf. by rewrite Hlt in Hf.
Qed.
Lemma find_descendants_spec m n x : is_Some (m !! n) -> x ∈ find_descendants m n <-> is_Some (m !! x) /\ proper_prefix n x.
Proof.
  intros [e He]. unfold find_descendants. rewrite He.
  destruct (after_sorted n (rib_names m)) as (H1 & H2 & H3); [apply rib_names_sorted|by apply rib_names_in; eexists|].
  rewrite take_while_all by done. rewrite <-(elem_of_list_In _ _ x) || idtac.
  etransitivity; [apply elem_of_list_In|]. etransitivity; [apply filter_In|]. rewrite <-elem_of_list_In, H3, rib_names_in, name_prefixb_prefix.
  split.
  - intros [[Hx Hlt] Hp]. split; [done|]. split; [done|]. intros ->. by rewrite (cmp_refl name_cmp_ok) in Hlt.
  - intros [Hx [Hp Hne]]. split; [|done]. split; [done|]. apply name_cmp_prefix in Hp as Hc. destruct (name_cmp n x) eqn:E; [|done..].
    apply name_cmp_ok in E. done.
Qed.
Lemma find_descendants_nodup m n : NoDup (find_descendants m n).
Proof.
  unfold find_descendants. destruct (m !! n) as [e|] eqn:E; [|constructor].
  destruct (after_sorted n (rib_names m)) as (H1 & H2 & H3); [apply rib_names_sorted|by apply rib_names_in; eexists|].
  rewrite take_while_all by done. apply NoDup_ListNoDup, List.NoDup_filter, NoDup_ListNoDup. by apply sorted_names_nodup.
Qed.
Lemma find_descendants_new_spec m n x : x ∈ find_descendants_new m n <-> is_Some (m !! x) /\ n `prefix_of` x.
Proof.
  unfold find_descendants_new. etransitivity; [apply elem_of_list_In|]. etransitivity; [apply filter_In|].
  by rewrite <-elem_of_list_In, rib_names_in, name_prefixb_prefix.
Qed.
Lemma find_descendants_new_nodup m n : NoDup (find_descendants_new m n).
Proof. unfold find_descendants_new. apply NoDup_ListNoDup, List.NoDup_filter, NoDup_ListNoDup. apply sorted_names_nodup, rib_names_sorted. Qed.
