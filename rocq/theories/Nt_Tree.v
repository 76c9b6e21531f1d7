(** Links of the name tree: prefix closure, parents and children. *)
From stdpp Require Import gmap.
From Verif Require Import Lib Name_Model Name_Proof Nt_Model Nt_Spec Nt_Hash.

Definition par (n : name) : name := take (length n - 1) n.

Lemma par_snoc n c : par (n ++ [c]) = n.
Proof.
  unfold par. rewrite app_length. simpl.
  replace (length n + 1 - 1) with (length n) by lia. by rewrite take_app.
Qed.
Lemma snoc_inv (n : name) : n <> [] -> exists p c, n = p ++ [c].
Proof. destruct n as [|c p _] using rev_ind; [done|]. eauto. Qed.
Lemma par_prefix n : par n `prefix_of` n.
Proof. unfold par. exists (drop (length n - 1) n). by rewrite take_drop. Qed.
Lemma par_length n : length (par n) = length n - 1.
Proof. unfold par. rewrite take_length. lia. Qed.
Lemma prefix_par k n : k `prefix_of` n -> k <> n -> k `prefix_of` par n.
Proof.
  intros [l ->] Hne. destruct l as [|c l _] using rev_ind; [by rewrite app_nil_r in Hne|].
  rewrite app_assoc, par_snoc. by exists l.
Qed.
Lemma prefix_of_par k n : n <> [] -> k `prefix_of` par n -> k `prefix_of` n /\ k <> n.
Proof.
  intros Hn Hk. split; [etrans; [done|apply par_prefix]|]. intros ->.
  apply prefix_length in Hk. rewrite par_length in Hk. destruct n; simpl in *; [done|lia].
Qed.
Lemma take_prefix_iff (k n : name) : k `prefix_of` n <-> k = take (length k) n /\ length k <= length n.
Proof.
  split.
  - intros [l ->]. rewrite take_app, app_length. split; [done|lia].
  - intros [-> _]. exists (drop (length k) n). by rewrite take_drop.
Qed.
Lemma par_take n i : 0 < i -> i <= length n -> par (take i n) = take (i - 1) n.
Proof. intros. unfold par. rewrite take_length, take_take. f_equal. lia. Qed.

Section nt.
  Context {E : Type} (e0 : E) (hc : comp -> N) (opts : ht_options).
  Notation node := (node (E:=E)).
  Notation hashtable := (hashtable (E:=E)).
  Implicit Types (t : hashtable) (x : node) (m : gmap name node) (n : name).
  Notation ht_inv := (ht_inv hc opts).

  Record tree_inv m : Prop := {
    ti_name : forall n x, m !! n = Some x -> n_name x = n;
    ti_depth : forall n x, m !! n = Some x -> length n <= 32;
    ti_parent : forall n x, m !! n = Some x -> n_parent x = if decide (n = []) then None else Some (par n);
    ti_closed : forall n, is_Some (m !! n) -> is_Some (m !! par n);
    ti_child_nd : forall n x, m !! n = Some x -> NoDup (n_children x);
    ti_child : forall n x (c : name), m !! n = Some x ->
      c ∈ n_children x <-> is_Some (m !! c) /\ c <> [] /\ par c = n;
  }.

  Definition content_of m : gmap name E := n_tables <$> m.

  Lemma closed_prefix m : tree_inv m -> forall n p, is_Some (m !! n) -> p `prefix_of` n -> is_Some (m !! p).
  Proof.
    intros T n. remember (length n) as k eqn:Ek. revert n Ek.
    induction k as [k IH] using lt_wf_ind. intros n Ek p Hn Hp. destruct (decide (p = n)) as [->|Hne]; [done|].
    assert (n <> []) as Hn0. { intros ->. apply prefix_nil_inv in Hp. done. }
    eapply (IH (length (par n))); [|done|by apply T|by apply prefix_par].
    rewrite Ek, par_length. destruct n; simpl in *; [done|lia].
  Qed.

  (** no stored name below a name without children *)
  Lemma childless m n x : tree_inv m -> m !! n = Some x -> n_children x = [] ->
    forall q, is_Some (m !! q) -> n `prefix_of` q -> q = n.
  Proof.
    intros T Hx Hc q Hq Hp. destruct (decide (q = n)) as [|Hne]; [done|exfalso].
    destruct Hp as [l ->]. destruct l as [|c l]; [by rewrite app_nil_r in Hne|].
    assert (n ++ [c] ∈ n_children x) as Hin; [|rewrite Hc in Hin; mem].
    apply (ti_child m T n x _ Hx). split_and!.
    - eapply closed_prefix; [done|exact Hq|]. exists l. by rewrite <- app_assoc.
    - by destruct n.
    - apply par_snoc.
  Qed.

  Lemma empty_tree_inv : tree_inv ∅.
  Proof.
    split; try (intros n x; rewrite lookup_empty; done).
  Qed.

  (** ** adding an entry below its parent *)
  Lemma add_root m x : tree_inv m -> m !! [] = None ->
    n_name x = [] -> n_parent x = None -> n_children x = [] -> tree_inv (<[[] := x]> m).
  Proof.
    intros T Hroot Hn Hp Hc.
    assert (m = ∅) as ->.
    { apply map_eq. intros k. rewrite lookup_empty. apply eq_None_not_Some. intros Hk.
      destruct (closed_prefix m T k [] Hk) as [y Hy]; [apply prefix_nil|]. congruence. }
    split.
    - intros n y [[<- <-]|[_ Hy]]%lookup_insert_Some; [done|by rewrite lookup_empty in Hy].
    - intros n y [[<- <-]|[_ Hy]]%lookup_insert_Some; [simpl; lia|by rewrite lookup_empty in Hy].
    - intros n y [[<- <-]|[_ Hy]]%lookup_insert_Some; [done|by rewrite lookup_empty in Hy].
    - intros n Hn'. apply lookup_insert_is_Some in Hn' as [<-|[_ [y Hy]]]; [|by rewrite lookup_empty in Hy].
      unfold par. simpl. rewrite lookup_insert. eauto.
    - intros n y [[<- <-]|[_ Hy]]%lookup_insert_Some; [rewrite Hc; constructor|by rewrite lookup_empty in Hy].
    - intros n y c [[<- <-]|[_ Hy]]%lookup_insert_Some; [|by rewrite lookup_empty in Hy].
      rewrite Hc. split; [mem|]. intros (Hs & Hc0 & _).
      apply lookup_insert_is_Some in Hs as [<-|[_ [y Hy]]]; [done|by rewrite lookup_empty in Hy].
  Qed.

  Lemma add_child m n x px : tree_inv m -> m !! n = None -> n <> [] -> length n <= 32 ->
    m !! par n = Some px ->
    n_name x = n -> n_children x = [] ->
    tree_inv (alter (fun y => set_n_children (n_children y ++ [n]) y) (par n)
               (alter (set_n_parent (Some (par n))) n (<[n := x]> m))).
  Proof.
    intros T Hn Hn0 Hd Hp Hxn Hxc.
    assert (par n <> n) as Hpn by (intros E0; congruence).
    set (m' := alter _ _ _).
    assert (m' !! n = Some (set_n_parent (Some (par n)) x)) as Mn.
    { unfold m'. rewrite lookup_alter_ne by done. by rewrite lookup_alter, lookup_insert. }
    assert (m' !! par n = Some (set_n_children (n_children px ++ [n]) px)) as Mp.
    { unfold m'. rewrite lookup_alter. rewrite lookup_alter_ne by done. by rewrite lookup_insert_ne, Hp by done. }
    assert (forall k, k <> n -> k <> par n -> m' !! k = m !! k) as Mo.
    { intros k H1 H2. unfold m'. rewrite !lookup_alter_ne by done. by rewrite lookup_insert_ne. }
    assert (forall k, is_Some (m' !! k) <-> k = n \/ is_Some (m !! k)) as Ms.
    { intros k. destruct (decide (k = n)) as [->|H1]; [rewrite Mn; naive_solver|].
      destruct (decide (k = par n)) as [->|H2]; [rewrite Mp, Hp; naive_solver|].
      rewrite Mo by done. naive_solver. }
    assert (forall k y, m' !! k = Some y ->
      (k = n /\ y = set_n_parent (Some (par n)) x) \/
      (k = par n /\ y = set_n_children (n_children px ++ [n]) px) \/
      (k <> n /\ k <> par n /\ m !! k = Some y)) as Mc.
    { intros k y Hy. destruct (decide (k = n)) as [->|H1]; [left; split; [done|congruence]|].
      destruct (decide (k = par n)) as [->|H2]; [right; left; split; [done|congruence]|].
      rewrite Mo in Hy by done. auto. }
    clearbody m'. split.
    - intros k y [[-> ->]|[[-> ->]|(_&_&Hy)]]%Mc; simpl; [done|by eapply T|by eapply T].
    - intros k y [[-> ->]|[[-> ->]|(_&_&Hy)]]%Mc; [done|by eapply T|by eapply T].
    - intros k y [[-> ->]|[[-> ->]|(_&_&Hy)]]%Mc; simpl; [by rewrite decide_False|by eapply T|by eapply T].
    - intros k [->|Hk]%Ms; apply Ms; right; [eauto|by apply T].
    - intros k y [[-> ->]|[[-> ->]|(_&_&Hy)]]%Mc; simpl; [rewrite Hxc; constructor| |by eapply T].
      apply NoDup_app. split_and!; [by eapply T| |apply NoDup_singleton].
      intros c Hc ->%elem_of_list_singleton. apply (ti_child m T _ _ _ Hp) in Hc as [[z Hz] _]. congruence.
    - intros k y c Hy. rewrite Ms. apply Mc in Hy as [[-> ->]|[[-> ->]|(H1 & H2 & Hy)]]; simpl.
      + rewrite Hxc. split; [mem|]. intros ([->|Hc] & Hc0 & Hcp); [done|].
        apply T in Hc. rewrite Hcp, Hn in Hc. by destruct Hc.
      + rewrite elem_of_app, elem_of_list_singleton, (ti_child m T _ _ _ Hp).
        split; [|naive_solver]. intros [?| ->]; naive_solver.
      + rewrite (ti_child m T _ _ _ Hy). split; [naive_solver|].
        intros ([->|Hc] & Hc0 & Hcp); [congruence|done].
  Qed.

  (** ** removing a childless entry *)
  Lemma NoDup_erase_first n (l : list name) : NoDup l ->
    NoDup (erase_first n l) /\ forall c, c ∈ erase_first n l <-> c ∈ l /\ c <> n.
  Proof.
    induction l as [|a l IH]; intros Hnd.
    { split; [constructor|]. intros c. split; [mem|intros [? _]; mem]. }
    apply NoDup_cons in Hnd as [Ha Hnd]. destruct (IH Hnd) as [IH1 IH2]. simpl.
    destruct (name_eqb n a) eqn:En.
    - apply name_eqb_eq in En. subst a. split; [done|]. intros c. rewrite elem_of_cons.
      split; [|naive_solver]. intros Hc. split; [by right|]. congruence.
    - apply name_eqb_neq in En. split.
      + apply NoDup_cons. split; [|done]. intros Hin. by apply IH2 in Hin as [? _].
      + intros c. rewrite !elem_of_cons, IH2. naive_solver.
  Qed.

  Lemma del_child m n x : tree_inv m -> m !! n = Some x -> n_children x = [] -> n <> [] ->
    forall px, m !! par n = Some px ->
    forall ch, NoDup ch -> (forall c, c ∈ ch <-> c ∈ n_children px /\ c <> n) ->
    tree_inv (delete n (<[par n := set_n_children ch px]> m)).
  Proof.
    intros T Hx Hc Hn0 px Hp ch Hnd Hch.
    assert (par n <> n) as Hpn.
    { intros E0. apply (f_equal length) in E0. rewrite par_length in E0. destruct n; simpl in *; [done|lia]. }
    set (m' := delete _ _).
    assert (forall k y, m' !! k = Some y -> k <> n /\
      ((k = par n /\ y = set_n_children ch px) \/ (k <> par n /\ m !! k = Some y))) as Mc.
    { intros k y [H1 [[H2 H3]|[H2 H3]]%lookup_insert_Some]%lookup_delete_Some.
      - subst. split; [done|]. left. done.
      - split; [done|]. right. done. }
    assert (forall k, is_Some (m' !! k) <-> k <> n /\ is_Some (m !! k)) as Ms.
    { intros k. unfold m'. destruct (decide (k = n)) as [->|H1].
      - rewrite lookup_delete. split; [intros [? ?]; done|naive_solver].
      - rewrite lookup_delete_ne by done. rewrite lookup_insert_is_Some.
        destruct (decide (k = par n)) as [->|H2]; [rewrite Hp; naive_solver|naive_solver]. }
    clearbody m'. split.
    - intros k y [_ [[-> ->]|[_ Hy]]]%Mc; simpl; by eapply T.
    - intros k y [_ [[-> ->]|[_ Hy]]]%Mc; by eapply T.
    - intros k y [_ [[-> ->]|[_ Hy]]]%Mc; simpl; by eapply T.
    - intros k [H1 Hk]%Ms. apply Ms. split; [|by apply T]. intros Hpk.
      assert (k = n) as ->; [|done].
      eapply childless; [done|exact Hx|done|done|]. rewrite <- Hpk. apply par_prefix.
    - intros k y [_ [[-> ->]|[_ Hy]]]%Mc; simpl; [done|by eapply T].
    - intros k y c Hy. rewrite Ms. apply Mc in Hy as [H1 [[-> ->]|[H2 Hy]]]; simpl.
      + rewrite Hch, (ti_child m T _ _ _ Hp). naive_solver.
      + rewrite (ti_child m T _ _ _ Hy). split; [|naive_solver].
        intros (Hs & Hc0 & Hcp). split_and!; try done. intros ->. congruence.
  Qed.

  Lemma del_root m x : tree_inv m -> m !! [] = Some x -> n_children x = [] -> m = {[ [] := x ]}.
  Proof.
    intros T Hx Hc. apply map_eq. intros k. destruct (decide (k = [])) as [->|Hk].
    - by rewrite lookup_singleton.
    - rewrite lookup_singleton_ne by done. apply eq_None_not_Some. intros Hs.
      apply Hk. eapply childless; eauto. apply prefix_nil.
  Qed.

  (** ** The operations *)
  Hypothesis Hopts : options_ok opts.
  Let Hmin : (0 < o_min opts)%N := proj1 Hopts.

  Definition nt_inv t : Prop := ht_inv t /\ tree_inv (abs t).

  Lemma content_lookup m k : content_of m !! k = n_tables <$> (m !! k).
  Proof. apply lookup_fmap. Qed.

  Lemma set_parent_ok t n x px : ht_inv t -> abs t !! n = Some x -> n_name x = n -> n_parent x = None -> n <> [] ->
    abs t !! par n = Some px -> n_name px = par n ->
    exists t', set_parent e0 hc opts n (par n) t = Some t' /\ ht_inv t' /\
      abs t' = alter (fun y => set_n_children (n_children y ++ [n]) y) (par n)
               (alter (set_n_parent (Some (par n))) n (abs t)).
  Proof.
    intros I Hx Hxn Hxp Hn0 Hp Hpn. unfold set_parent. rewrite !deref_abs by done. rewrite Hx, Hp, Hxp, Hxn.
    rewrite bool_decide_eq_false_2 by done. rewrite Hpn. fold (par n). rewrite name_eqb_refl. simpl.
    destruct (write_inv hc opts t n (set_n_parent (Some (par n))) I) as (I1 & A1 & _); [done|].
    destruct (write_inv hc opts (write n (set_n_parent (Some (par n))) t) (par n)
      (fun y => set_n_children (n_children y ++ [n]) y) I1) as (I2 & A2 & _); [done|].
    eexists. split; [reflexivity|]. split; [done|]. by rewrite A2, A1.
  Qed.

  Lemma lookup_step t n len i : nt_inv t -> len <= length n -> len <= 32 -> i <= len ->
    (forall j, i = S j -> is_Some (abs t !! take j n)) ->
    exists t1 x b, ht_insert e0 hc opts n i (compute_hashes hc n len) t = Some (t1, (x, b)) /\
      n_name x = take i n /\
      exists t2, (match (match i with O => None | S j => Some (take j n) end) with
             | Some p => if b then set_parent e0 hc opts (n_name x) p t1 else Some t1
             | None => Some t1 end) = Some t2 /\
      nt_inv t2 /\ is_Some (abs t2 !! take i n) /\
      (forall k, content_of (abs t2) !! k =
         match content_of (abs t) !! k with Some e => Some e
         | None => if bool_decide (k = take i n) then Some e0 else None end).
  Proof.
    intros [I T] H1 H2 Hi Hpar.
    destruct (insert_abs e0 hc opts t n len i Hopts I H1 Hi) as (t1 & x & b & Hins & I1 & Hxn & Hx1 & Hcase).
    exists t1, x, b. split; [done|]. split; [done|].
    destruct (abs t !! take i n) as [y|] eqn:Ay.
    - destruct Hcase as (-> & -> & ->). exists t. split; [by destruct i|]. split; [done|].
      split; [by rewrite Ay; eauto|]. intros k. destruct (content_of (abs t) !! k) eqn:Ek; [done|].
      rewrite bool_decide_eq_false_2; [done|]. intros ->. rewrite content_lookup, Ay in Ek. done.
    - destruct Hcase as (-> & Hxp & Hxc & Hxt & Ha1).
      destruct i as [|j].
      + simpl in *. exists t1. split; [done|]. rewrite take_0 in *. split; [split; [done|]|].
        * rewrite Ha1. by apply add_root.
        * split; [rewrite Hx1; eauto|]. intros k. rewrite !content_lookup, Ha1.
          destruct (decide (k = [])) as [->|Hk].
          -- rewrite lookup_insert, Ay, bool_decide_eq_true_2 by done. simpl. by rewrite Hxt.
          -- rewrite lookup_insert_ne, bool_decide_eq_false_2 by done.
             by destruct (abs t !! k).
      + destruct (Hpar j eq_refl) as [px Hpx].
        assert (take (S j) n <> []) as Hn0.
        { intros E0. apply (f_equal length) in E0. rewrite take_length, nil_length in E0. lia. }
        assert (par (take (S j) n) = take j n) as Hpt.
        { rewrite par_take by lia. f_equal. lia. }
        assert (take j n <> take (S j) n) as Hneq by (intros E0; congruence).
        assert (abs t1 !! take j n = Some px) as Hpx1 by (rewrite Ha1, lookup_insert_ne; done).
        assert (n_name px = take j n) as Hpn by (by eapply T).
        destruct (set_parent_ok t1 (take (S j) n) x px) as (t2 & Hset & I2 & Ha2);
          [done|done|done|done|done|by rewrite Hpt|by rewrite Hpt|].
        rewrite Hpt in Hset. rewrite Hxn. exists t2. split; [done|].
        assert (tree_inv (abs t2)) as T2.
        { rewrite Ha2, Ha1. eapply add_child; try done.
          - rewrite take_length. lia.
          - by rewrite Hpt. }
        split; [done|].
        assert (forall k, abs t2 !! k = None <-> abs t1 !! k = None) as Hnone.
        { intros k. rewrite Ha2. rewrite !lookup_alter_None. done. }
        split.
        * destruct (abs t2 !! take (S j) n) eqn:E2; [eauto|]. apply Hnone in E2. congruence.
        * intros k. rewrite !content_lookup, Ha2, Ha1, Hpt.
          destruct (decide (k = take (S j) n)) as [->|Hk].
          -- rewrite lookup_alter_ne by done. rewrite lookup_alter, lookup_insert, Ay.
             rewrite bool_decide_eq_true_2 by done. simpl. by rewrite Hxt.
          -- rewrite bool_decide_eq_false_2 by done.
             destruct (decide (k = take j n)) as [->|Hk2].
             ++ rewrite lookup_alter, lookup_alter_ne, lookup_insert_ne, Hpx by done. done.
             ++ rewrite !lookup_alter_ne, lookup_insert_ne by done. by destruct (abs t !! k).
  Qed.

  Lemma lookup_loop_ok n len : len <= length n -> len <= 32 ->
    forall k i t, i + k = S len -> nt_inv t ->
    (forall j, i = S j -> is_Some (abs t !! take j n)) ->
    exists t', lookup_loop e0 hc opts n (compute_hashes hc n len) (seq i k)
                 (match i with O => None | S j => Some (take j n) end) t = Some (t', Some (take len n)) /\
      nt_inv t' /\
      forall q, content_of (abs t') !! q =
        match content_of (abs t) !! q with
        | Some e => Some e
        | None => if bool_decide (q = take (length q) n /\ i <= length q /\ length q <= len) then Some e0 else None
        end.
  Proof.
    intros H1 H2 k. induction k as [|k IH]; intros i t Hik Inv Hpar.
    - simpl. assert (i = S len) as -> by lia. exists t. split; [done|]. split; [done|].
      intros q. destruct (content_of (abs t) !! q); [done|].
      rewrite bool_decide_eq_false_2; [done|]. lia.
    - cbn [seq lookup_loop].
      destruct (lookup_step t n len i Inv H1 H2 ltac:(lia) Hpar)
        as (t1 & x & b & Hins & Hxn & t2 & Hset & Inv2 & Hs2 & Hc2).
      rewrite Hins, Hset, Hxn.
      destruct (IH (S i) t2) as (t' & Hl & Inv' & Hc'); [lia|done| |].
      { intros j [= <-]. done. }
      simpl in Hl. exists t'. split; [done|]. split; [done|].
      intros q. rewrite Hc', Hc2. destruct (content_of (abs t) !! q); [done|].
      destruct (bool_decide (q = take i n)) eqn:Eq.
      + apply bool_decide_eq_true in Eq. rewrite bool_decide_eq_true_2; [done|].
        subst q. rewrite take_length_le by lia. split; [done|lia].
      + apply bool_decide_eq_false in Eq.
        rewrite (bool_decide_ext (q = take (length q) n /\ S i <= length q /\ length q <= len)
                   (q = take (length q) n /\ i <= length q /\ length q <= len)); [done|].
        split; intros (Hq & ? & ?); split_and!; try done; [lia|].
        destruct (decide (length q = i)) as [Hi|]; [|lia]. rewrite Hi in Hq. done.
  Qed.
End nt.
