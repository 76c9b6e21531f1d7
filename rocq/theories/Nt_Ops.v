(** The operations of the name tree meet their specifications. *)
From stdpp Require Import gmap.
From Verif Require Import Lib Name_Model Name_Proof Nt_Model Nt_Spec Nt_Hash Nt_Tree.

Section nt.
  Context {E : Type} (e0 : E) (hs : E -> bool) (hc : comp -> N) (opts : ht_options).
  Notation node := (node (E:=E)).
  Notation hashtable := (hashtable (E:=E)).
  Implicit Types (t : hashtable) (x : node) (m : gmap name node) (n : name).
  Notation ht_inv := (ht_inv hc opts).
  Notation nt_inv := (nt_inv hc opts).
  Hypothesis Hopts : options_ok opts.
  Let Hmin : (0 < o_min opts)%N := proj1 Hopts.

  Definition cont t : gmap name E := content_of (abs t).

  Lemma lookup_ok t n len : nt_inv t -> len <= length n -> len <= 32 ->
    exists t', nt_lookup e0 hc opts n len t = Some (t', take len n) /\ nt_inv t' /\
      after_lookup e0 (take len n) (cont t !!.) (cont t' !!.).
  Proof.
    intros Inv H1 H2. unfold nt_lookup.
    destruct (length n <? len)%nat eqn:E1; [lia|].
    destruct (MAX_DEPTH <? len)%nat eqn:E2; [unfold MAX_DEPTH in *; lia|].
    destruct (lookup_loop_ok e0 hc opts Hopts n len H1 H2 (S len) 0 t) as (t' & Hl & Inv' & Hc); [lia|done| |].
    { intros j Hj. done. }
    rewrite Hl. exists t'. split; [done|]. split; [done|]. intros k. cbv beta. unfold cont. rewrite Hc.
    destruct (content_of (abs t) !! k); [done|].
    assert ((k = take (length k) n /\ 0 <= length k <= len) <-> k `prefix_of` take len n) as Hiff.
    { rewrite take_prefix_iff, take_take, take_length. split.
      - intros (Hk & _ & Hl'). rewrite (Nat.min_l (length k) len) by lia. split; [done|]. lia.
      - intros [Hk Hl']. rewrite (Nat.min_l (length k) len) in Hk by lia. split; [done|]. lia. }
    do 2 case_bool_decide; tauto.
  Qed.

  (** ** eraseIfEmpty *)
  Lemma unset_parent_ok t n x : nt_inv t -> abs t !! n = Some x -> n <> [] ->
    exists t' px, unset_parent e0 hc opts n t = Some t' /\ ht_inv t' /\ abs t !! par n = Some px /\
      abs t' = alter (set_n_parent None) n
        (alter (fun y => set_n_children (erase_first n (n_children y)) y) (par n) (abs t)).
  Proof.
    intros [I T] Hx Hn0. unfold unset_parent. rewrite !deref_abs by done. rewrite Hx.
    rewrite (ti_parent _ T n x Hx), decide_False by done.
    destruct (ti_closed _ T n) as [px Hpx]; [eauto|]. rewrite deref_abs, Hpx by done.
    assert (n ∈ n_children px) as Hin.
    { apply (ti_child _ T _ _ _ Hpx). split_and!; eauto. }
    assert (existsb (name_eqb n) (n_children px) = true) as ->.
    { apply existsb_exists. exists n. rewrite name_eqb_refl. split; [by apply elem_of_list_In|done]. }
    destruct (write_inv hc opts t (par n) (fun y => set_n_children (erase_first n (n_children y)) y) I)
      as (I1 & A1 & _); [done|].
    destruct (write_inv hc opts (write (par n) (fun y => set_n_children (erase_first n (n_children y)) y) t)
      n (set_n_parent None) I1) as (I2 & A2 & _); [done|].
    eexists _, px. split; [reflexivity|]. split; [done|]. split; [done|]. by rewrite A2, A1.
  Qed.

  (** one iteration: remove an empty entry *)
  Lemma erase_one t n x : nt_inv t -> abs t !! n = Some x -> is_empty hs x = true ->
    exists t1 t2, (match n_parent x with Some _ => unset_parent e0 hc opts n t | None => Some t end) = Some t1 /\
      ht_erase e0 hc opts n t1 = Some t2 /\ nt_inv t2 /\ cont t2 = delete n (cont t) /\
      S (size (abs t2)) = size (abs t) /\
      (n <> [] -> is_Some (abs t2 !! par n)).
  Proof.
    intros [I T] Hx He.
    assert (n_children x = []) as Hc. { unfold is_empty in He. by destruct (n_children x). }
    rewrite (ti_parent _ T n x Hx). destruct (decide (n = [])) as [->|Hn0].
    - destruct (erase_abs e0 hc opts t [] x Hopts I Hx) as (t2 & Ht2 & I2 & A2).
      { by rewrite (ti_parent _ T [] x Hx), decide_True. }
      exists t, t2. split; [done|]. split; [done|].
      pose proof (del_root hc _ x T Hx Hc) as Hs.
      assert (abs t2 = ∅) as A2'. { by rewrite A2, Hs, delete_singleton. }
      split_and!; [split; [done|rewrite A2'; apply empty_tree_inv]| | |done].
      + unfold cont, content_of. rewrite A2. by rewrite fmap_delete.
      + rewrite A2', Hs. by rewrite map_size_empty, map_size_singleton.
    - destruct (unset_parent_ok t n x (conj I T) Hx Hn0) as (t1 & px & Hu & I1 & Hpx & A1).
      assert (par n <> n) as Hpn.
      { intros E0. apply (f_equal length) in E0. rewrite par_length in E0. destruct n; simpl in *; [done|lia]. }
      assert (abs t1 !! n = Some (set_n_parent None x)) as Hx1.
      { rewrite A1, lookup_alter, lookup_alter_ne by done. by rewrite Hx. }
      destruct (erase_abs e0 hc opts t1 n _ Hopts I1 Hx1 eq_refl) as (t2 & Ht2 & I2 & A2).
      exists t1, t2. split; [done|]. split; [done|].
      assert (abs t2 = delete n (<[par n := set_n_children (erase_first n (n_children px)) px]> (abs t))) as A2'.
      { rewrite A2, A1.
        apply map_eq. intros k. destruct (decide (k = n)) as [->|Hk]; [by rewrite !lookup_delete|].
        rewrite !lookup_delete_ne by done. rewrite lookup_alter_ne by done.
        destruct (decide (k = par n)) as [->|Hk2].
        - by rewrite lookup_alter, lookup_insert, Hpx.
        - by rewrite lookup_alter_ne, lookup_insert_ne by done. }
      destruct (NoDup_erase_first n (n_children px)) as [Nd Hch]; [by eapply T|].
      split_and!.
      + split; [done|]. rewrite A2'. by eapply (del_child hc).
      + unfold cont, content_of. rewrite A2', fmap_delete. f_equal. rewrite fmap_insert. simpl.
        apply map_eq. intros k. destruct (decide (k = par n)) as [->|Hk].
        * by rewrite lookup_insert, lookup_fmap, Hpx.
        * by rewrite lookup_insert_ne.
      + rewrite A2', map_size_delete, lookup_insert_ne, Hx by done.
        rewrite map_size_insert, Hpx. simpl.
        assert (size (abs t) <> 0); [|lia].
        intros H0. apply map_size_empty_inv in H0. by rewrite H0, lookup_empty in Hx.
      + intros _. rewrite A2', lookup_delete_ne, lookup_insert by done. eauto.
  Qed.

  Lemma cont_lookup t k : cont t !! k = n_tables <$> (abs t !! k).
  Proof. apply lookup_fmap. Qed.
  Lemma cont_is_Some t k : is_Some (cont t !! k) <-> is_Some (abs t !! k).
  Proof. rewrite cont_lookup. apply fmap_is_Some. Qed.

  Lemma not_empty_no_garbage t n x k : nt_inv t -> abs t !! n = Some x -> is_empty hs x = false ->
    ~ garbage_above hs (cont t !!.) n k.
  Proof.
    intros [I T] Hx He [Hk Hg]. unfold is_empty in He. destruct (n_children x) as [|c ch] eqn:Ec.
    - destruct (Hg n (n_tables x)) as [_ Hf]; [by rewrite cont_lookup, Hx|done|]. by rewrite Hf in He.
    - assert (c ∈ n_children x) as Hin by (rewrite Ec; mem).
      apply (ti_child _ T _ _ _ Hx) in Hin as ([y Hy] & Hc0 & Hcp).
      assert (n `prefix_of` c) as Hnc by (rewrite <- Hcp; apply par_prefix).
      destruct (Hg c (n_tables y)) as [Hp _]; [by rewrite cont_lookup, Hy|by etrans|].
      apply prefix_length in Hp. rewrite <- Hcp, par_length in Hp. destruct c; simpl in *; [done|lia].
  Qed.

  Lemma empty_garbage t n x : nt_inv t -> abs t !! n = Some x -> is_empty hs x = true ->
    garbage_above hs (cont t !!.) n n.
  Proof.
    intros [I T] Hx He. split; [done|]. intros q e Hq Hp.
    assert (n_children x = []) as Hc. { unfold is_empty in He. by destruct (n_children x). }
    assert (q = n) as ->.
    { eapply (childless hc _ n x T Hx Hc); [|done]. apply cont_is_Some. eauto. }
    split; [done|]. rewrite cont_lookup, Hx in Hq. simpl in Hq. simplify_eq.
    unfold is_empty in He. rewrite Hc in He. by destruct (hs (n_tables x)).
  Qed.

  Lemma garbage_step (m : gmap name E) n k : n <> [] ->
    garbage_above hs (m !!.) n n ->
    garbage_above hs (m !!.) n k <-> k = n \/ garbage_above hs (delete n m !!.) (par n) k.
  Proof.
    intros Hn0 [_ Hg]. split.
    - intros [Hk Hgk]. destruct (decide (k = n)) as [->|Hne]; [by left|right].
      split; [by apply prefix_par|]. intros q e [Hqn Hq]%lookup_delete_Some Hp.
      destruct (Hgk q e Hq Hp) as [Hp' Hf]. split; [|done]. by apply prefix_par.
    - intros [->|[Hk Hgk]]; [by split|]. split; [etrans; [done|apply par_prefix]|].
      intros q e Hq Hp. destruct (decide (q = n)) as [->|Hne]; [by eapply Hg|].
      destruct (Hgk q e) as [Hp' Hf]; [by rewrite lookup_delete_ne|done|].
      split; [|done]. etrans; [done|apply par_prefix].
  Qed.

  Lemma erase_loop_ok fuel : forall t n a, nt_inv t -> length n < fuel -> is_Some (abs t !! n) ->
    exists t' k, erase_loop e0 hs hc opts fuel n a t = Some (t', k) /\ nt_inv t' /\
      after_erase hs n a (cont t !!.) (cont t' !!.) /\ size (abs t) = size (abs t') + k.
  Proof.
    induction fuel as [|fuel IH]; intros t n a Inv Hf [x Hx]; [lia|]. cbn [erase_loop].
    rewrite deref_abs, Hx by (apply Inv || done). destruct (is_empty hs x) eqn:He; cbn [negb].
    - pose proof (empty_garbage t n x Inv Hx He) as Hgn.
      destruct (erase_one t n x Inv Hx He) as (t1 & t2 & -> & -> & Inv2 & C2 & S2 & Hp2).
      assert (after_erase hs n false (cont t !!.) (cont t2 !!.)) as Hfalse.
      { intros k. cbv beta. rewrite C2. split.
        - intros [_ [?| ->]]; [done|]. apply lookup_delete.
        - intros Hk. apply lookup_delete_ne. intros <-. apply Hk. auto. }
      destruct a; simpl.
      + rewrite (ti_parent _ (proj2 Inv) n x Hx). destruct (decide (n = [])) as [->|Hn0].
        { exists t2, 1. split_and!; try done; [|lia]. intros k. destruct (Hfalse k) as [Hf1 Hf2]. split.
          - intros [Hg _]. apply Hf1. split; [done|]. right. destruct Hg as [Hk _].
            by apply prefix_nil_inv in Hk.
          - intros Hk. apply Hf2. intros [Hg Hor]. apply Hk. split; [done|]. by left. }
        destruct (IH t2 (par n) true) as (t3 & k & -> & Inv3 & Ae & S3); [done| |auto|].
        { rewrite par_length. destruct n; simpl in *; [done|lia]. }
        exists t3, (S k). split_and!; try done; [|lia].
        intros j. destruct (Ae j) as [A1 A2]. cbv beta in A1, A2. rewrite C2 in A1, A2.
        pose proof (garbage_step (cont t) n j Hn0 Hgn) as Hgs. split.
        * intros [Hg _]. apply Hgs in Hg as [->|Hg]; [|by apply A1; auto].
          rewrite A2; [by rewrite lookup_delete|]. intros [[Hp _] _].
          apply prefix_of_par in Hp as [_ Hp]; done.
        * intros Hng. rewrite A2.
          -- apply lookup_delete_ne. intros <-. apply Hng. auto.
          -- intros [Hg _]. apply Hng. split; [|by left]. apply Hgs. by right.
      + exists t2, 1. split_and!; try done. lia.
    - exists t, 0. split; [done|]. split; [done|]. split; [|lia]. intros k. split; [|done].
      intros [Hg _]. by eapply not_empty_no_garbage in Hg.
  Qed.

  Lemma erase_ok t n a : nt_inv t -> is_Some (abs t !! n) ->
    exists t' k, nt_erase_if_empty e0 hs hc opts n a t = Some (t', k) /\ nt_inv t' /\
      after_erase hs n a (cont t !!.) (cont t' !!.) /\ size (abs t) = size (abs t') + k.
  Proof. intros Inv Hn. unfold nt_erase_if_empty. by apply erase_loop_ok; [|lia|]. Qed.

  Lemma set_ok t n e : nt_inv t -> is_Some (abs t !! n) ->
    nt_inv (nt_set_tables n e t) /\ cont (nt_set_tables n e t) = <[n := e]> (cont t).
  Proof.
    intros [I T] [x Hx]. unfold nt_set_tables.
    destruct (write_inv hc opts t n (set_n_tables e) I) as (I1 & A1 & _); [done|].
    assert (forall k y, alter (set_n_tables e) n (abs t) !! k = Some y ->
      exists z, abs t !! k = Some z /\ n_name y = n_name z /\ n_parent y = n_parent z /\ n_children y = n_children z) as Hy.
    { intros k y. destruct (decide (n = k)) as [->|Hne].
      - rewrite lookup_alter, Hx. simpl. intros [= <-]. eauto 10.
      - rewrite lookup_alter_ne by done. eauto 10. }
    assert (forall k, is_Some (alter (set_n_tables e) n (abs t) !! k) <-> is_Some (abs t !! k)) as Hs.
    { intros k. destruct (decide (n = k)) as [->|Hne].
      - rewrite lookup_alter. apply fmap_is_Some.
      - by rewrite lookup_alter_ne. }
    split; [split; [done|]|].
    - rewrite A1. split.
      + intros k y (z & Hz & -> & _)%Hy. by eapply T.
      + intros k y (z & Hz & _)%Hy. by eapply T.
      + intros k y (z & Hz & _ & -> & _)%Hy. by eapply T.
      + intros k Hk. apply Hs, T, Hs, Hk.
      + intros k y (z & Hz & _ & _ & ->)%Hy. by eapply T.
      + intros k y c (z & Hz & _ & _ & ->)%Hy. rewrite Hs. by eapply T.
    - unfold cont, content_of. rewrite A1. apply map_eq. intros k.
      destruct (decide (n = k)) as [->|Hne].
      + by rewrite lookup_fmap, lookup_alter, lookup_insert, Hx.
      + by rewrite lookup_fmap, lookup_alter_ne, lookup_insert_ne, lookup_fmap.
  Qed.

  Lemma new_ok : nt_inv (ht_new (E:=E) opts) /\ cont (ht_new opts) = ∅.
  Proof.
    destruct (new_inv (E:=E) hc opts Hopts) as [I A]. unfold cont, Nt_Tree.nt_inv. rewrite A. split.
    - split; [done|apply empty_tree_inv].
    - apply fmap_empty.
  Qed.

  (** ** reading *)
  Lemma find_exact_ok t n len : nt_inv t ->
    nt_find_exact e0 hc opts n len t =
    abs t !! take (match len with Some l => l | None => length n end) n.
  Proof.
    intros [I T]. unfold nt_find_exact.
    set (l := match len with Some l => Nat.min (length n) l | None => length n end).
    assert (l <= length n) as Hl by (unfold l; destruct len; lia).
    assert (take l n = take (match len with Some l => l | None => length n end) n) as Ht.
    { unfold l. destruct len as [k|]; [|done]. destruct (Nat.le_gt_cases k (length n)).
      - by rewrite Nat.min_r by lia.
      - rewrite Nat.min_l by lia. by rewrite firstn_all, take_ge by lia. }
    destruct (MAX_DEPTH <? l)%nat eqn:Em.
    - unfold MAX_DEPTH in Em. symmetry. rewrite <- Ht. apply eq_None_not_Some. intros [x Hx].
      apply (ti_depth _ T) in Hx. rewrite take_length in Hx. lia.
    - rewrite find_abs by done. by rewrite Ht.
  Qed.

  Lemma stored_cont t n : nt_inv t -> stored e0 hc opts t n = cont t !! n.
  Proof.
    intros Inv. unfold stored. rewrite find_exact_ok by done. rewrite firstn_all, cont_lookup. done.
  Qed.

  Lemma lpm_loop_ok t n sel len : nt_inv t -> len <= length n -> forall i, i <= len ->
    exists r, lpm_loop e0 hc opts n (compute_hashes hc n len) sel i t = Some r /\
      match r with
      | Some x => sel x = true /\ exists j, j <= i /\ abs t !! take j n = Some x /\
                    forall k y, j < k <= i -> abs t !! take k n = Some y -> sel y = false
      | None => forall k y, k <= i -> abs t !! take k n = Some y -> sel y = false
      end.
  Proof.
    intros [I T] Hlen i. induction i as [|i IH]; intros Hi; cbn [lpm_loop].
    - rewrite find_with_abs by done. destruct (abs t !! take 0 n) as [x|] eqn:Ex.
      + destruct (sel x) eqn:Es; eexists; (split; [done|]); simpl.
        * split; [done|]. exists 0. split; [lia|]. split; [done|]. intros; lia.
        * intros k y Hk. assert (k = 0) as -> by lia. rewrite Ex. by intros [= <-].
      + eexists. split; [done|]. simpl. intros k y Hk. assert (k = 0) as -> by lia. by rewrite Ex.
    - rewrite find_with_abs by done. destruct IH as (r & Hr & Hspec); [lia|].
      destruct (abs t !! take (S i) n) as [x|] eqn:Ex.
      + destruct (sel x) eqn:Es.
        * eexists; (split; [done|]); simpl. split; [done|]. exists (S i). split; [lia|]. split; [done|]. intros; lia.
        * rewrite Hr. exists r. split; [done|]. destruct r as [z|].
          -- destruct Hspec as (Hz & j & Hj & Hjz & Hlong). split; [done|]. exists j. split; [lia|].
             split; [done|]. intros k y Hk Hy. destruct (decide (k = S i)) as [->|].
             ++ rewrite Ex in Hy. by simplify_eq.
             ++ eapply Hlong; [|done]. lia.
          -- intros k y Hk Hy. destruct (decide (k = S i)) as [->|].
             ++ rewrite Ex in Hy. by simplify_eq.
             ++ eapply Hspec; [|done]. lia.
      + rewrite Hr. exists r. split; [done|]. destruct r as [z|].
        * destruct Hspec as (Hz & j & Hj & Hjz & Hlong). split; [done|]. exists j. split; [lia|].
          split; [done|]. intros k y Hk Hy. destruct (decide (k = S i)) as [->|]; [congruence|].
          eapply Hlong; [|done]. lia.
        * intros k y Hk Hy. destruct (decide (k = S i)) as [->|]; [congruence|].
          eapply Hspec; [|done]. lia.
  Qed.

  (** [r] is the longest prefix of [n] that is stored and selected *)
  Definition longest_selected t n (sel : node -> bool) (r : option node) : Prop :=
    match r with
    | Some x => sel x = true /\ abs t !! n_name x = Some x /\ n_name x `prefix_of` n /\
                forall p y, abs t !! p = Some y -> p `prefix_of` n -> length (n_name x) < length p -> sel y = false
    | None => forall p y, abs t !! p = Some y -> p `prefix_of` n -> sel y = false
    end.

  Lemma lpm_ok t n sel : nt_inv t ->
    exists r, nt_lpm e0 hc opts n sel t = Some r /\ longest_selected t n sel r.
  Proof.
    intros Inv. unfold nt_lpm. set (d := Nat.min (length n) MAX_DEPTH).
    assert (d <= length n) as Hd by (unfold d; lia).
    destruct (lpm_loop_ok t n sel d Inv Hd d ltac:(lia)) as (r & Hr & Hs). exists r. split; [done|].
    assert (forall p y, abs t !! p = Some y -> p `prefix_of` n -> p = take (length p) n /\ length p <= d) as Hp.
    { intros p y Hy Hpn. apply take_prefix_iff in Hpn as [? ?]. split; [done|].
      apply (ti_depth _ (proj2 Inv)) in Hy. unfold d, MAX_DEPTH. lia. }
    destruct r as [x|]; simpl.
    - destruct Hs as (Hx & j & Hj & Hjx & Hlong).
      pose proof (ti_name _ (proj2 Inv) _ _ Hjx) as Hnx. rewrite Hnx. split_and!; try done.
      + apply take_prefix_iff. rewrite take_length. rewrite Nat.min_l by lia. split; [done|lia].
      + intros p y Hy Hpn Hlen. destruct (Hp p y Hy Hpn) as [Hpe Hpl]. rewrite take_length in Hlen.
        rewrite Hpe in Hy. eapply Hlong; [|exact Hy]. lia.
    - intros p y Hy Hpn. destruct (Hp p y Hy Hpn) as [Hpe Hpl]. rewrite Hpe in Hy. by eapply Hs.
  Qed.

  Lemma lpm_up_ok t sel : nt_inv t -> forall fuel n, length n < fuel -> is_Some (abs t !! n) ->
    exists r, lpm_up e0 hc opts fuel n sel t = Some r /\ longest_selected t n sel r.
  Proof.
    intros Inv. induction fuel as [|fuel IH]; intros n Hf [x Hx]; [lia|]. cbn [lpm_up].
    rewrite deref_abs, Hx by (apply Inv || done).
    pose proof (ti_name _ (proj2 Inv) _ _ Hx) as Hnx.
    destruct (sel x) eqn:Es.
    - exists (Some x). split; [done|]. simpl. rewrite Hnx. split_and!; try done.
      intros p y _ Hp Hl. apply prefix_length in Hp. lia.
    - rewrite (ti_parent _ (proj2 Inv) n x Hx). destruct (decide (n = [])) as [->|Hn0].
      + exists None. split; [done|]. intros p y Hy Hp. apply prefix_nil_inv in Hp as ->. by simplify_eq.
      + destruct (IH (par n)) as (r & Hr & Hs).
        { rewrite par_length. destruct n; simpl in *; [done|lia]. }
        { apply Inv. eauto. }
        exists r. split; [done|].
        assert (forall p y, abs t !! p = Some y -> p `prefix_of` n -> p `prefix_of` par n \/ sel y = false) as Hor.
        { intros p y Hy Hp. destruct (decide (p = n)) as [->|Hne]; [right; congruence|left; by apply prefix_par]. }
        destruct r as [z|]; simpl in *.
        * destruct Hs as (? & ? & ? & Hlong). split_and!; try done.
          { etrans; [done|apply par_prefix]. }
          intros p y Hy Hp Hl. destruct (Hor p y Hy Hp) as [Hpp|]; [by eapply Hlong|done].
        * intros p y Hy Hp. destruct (Hor p y Hy Hp) as [Hpp|]; [by eapply Hs|done].
  Qed.
  Lemma lpm_entry_ok t n sel : nt_inv t -> is_Some (abs t !! n) ->
    exists r, nt_lpm_entry e0 hc opts n sel t = Some r /\ longest_selected t n sel r.
  Proof. intros Inv Hn. unfold nt_lpm_entry. by apply lpm_up_ok; [|lia|]. Qed.

  (** the walk down for a PIT entry reaches the deepest stored prefix of its name *)
  Lemma go_deeper_ok t n : nt_inv t -> forall k i, i + k <= length n -> is_Some (abs t !! take i n) ->
    (forall j, i + k < j -> j <= length n -> abs t !! take j n = None) ->
    exists j, go_deeper e0 hc opts n (seq (S i) k) (take i n) t = take j n /\ i <= j <= length n /\
      is_Some (abs t !! take j n) /\ (forall l, j < l -> l <= length n -> abs t !! take l n = None).
  Proof.
    intros Inv. induction k as [|k IH]; intros i Hik Hs Hb; cbn [seq go_deeper].
    - exists i. split_and!; try done; [lia|]. intros l Hl Hl'. apply Hb; lia.
    - rewrite find_exact_ok by done. destruct (abs t !! take (S i) n) as [x|] eqn:Ex.
      + pose proof (ti_name _ (proj2 Inv) _ _ Ex) as Hnx. rewrite Hnx.
        destruct (IH (S i)) as (j & Hj & Hr & Hsj & Hlast); [lia|rewrite Ex; eauto|intros; apply Hb; lia|].
        exists j. split_and!; try done; lia.
      + exists i. split_and!; try done; [lia|]. intros l Hl Hl'. apply eq_None_not_Some. intros Hsl.
        assert (is_Some (abs t !! take (S i) n)) as [? ?]; [|congruence].
        eapply (closed_prefix hc _ (proj2 Inv)); [exact Hsl|].
        apply take_prefix_iff. rewrite !take_length, take_take. split; [f_equal; lia|lia].
  Qed.

  Lemma lpm_pit_ok t n at_ sel : nt_inv t -> at_ `prefix_of` n -> is_Some (abs t !! at_) ->
    exists r, nt_lpm_pit e0 hc opts n at_ sel t = Some r /\ longest_selected t n sel r.
  Proof.
    intros Inv Hp Hs. unfold nt_lpm_pit. set (d := Nat.min (length n) MAX_DEPTH).
    apply take_prefix_iff in Hp as [Ha Hl].
    assert (exists j, (if (length at_ <? length n)%nat
        then go_deeper e0 hc opts n (seq (S (length at_)) (d - length at_)) at_ t else at_) = take j n /\
        j <= length n /\ is_Some (abs t !! take j n) /\
        (forall l, j < l -> l <= length n -> abs t !! take l n = None)) as (j & -> & Hj & Hsj & Hlast).
    { assert (length at_ <= 32) as H32. { destruct Hs as [x Hx]. by eapply Inv. }
      destruct (length at_ <? length n)%nat eqn:El.
      - destruct (go_deeper_ok t n Inv (d - length at_) (length at_)) as (j & Hg & Hj & Hsj & Hlast).
        + unfold d, MAX_DEPTH in *. lia.
        + by rewrite <- Ha.
        + intros j Hj Hjn. apply eq_None_not_Some. intros [x Hx]. apply (ti_depth _ (proj2 Inv)) in Hx.
          rewrite take_length in Hx. unfold d, MAX_DEPTH in *. lia.
        + rewrite <- Ha in Hg. exists j. split_and!; try done. lia.
      - exists (length at_). rewrite <- Ha. split_and!; try done; lia. }
    destruct (lpm_entry_ok t (take j n) sel Inv Hsj) as (r & Hr & Hsr). exists r. split; [done|].
    assert (forall p y, abs t !! p = Some y -> p `prefix_of` n -> p `prefix_of` take j n) as Hpj.
    { intros p y Hy Hpn. apply take_prefix_iff in Hpn as [Hpe Hpl]. apply take_prefix_iff.
      destruct (Nat.le_gt_cases (length p) j) as [Hle|Hgt].
      - rewrite take_take, take_length, Nat.min_l by lia. split; [done|lia].
      - exfalso. rewrite Hpe, Hlast in Hy; [done|lia|lia]. }
    destruct r as [x|]; simpl in *.
    - destruct Hsr as (? & ? & Hp & Hlong). split_and!; try done.
      + etrans; [done|]. apply take_prefix_iff. rewrite take_length, Nat.min_l by lia. split; [done|lia].
      + intros p y Hy Hpn. apply (Hlong p y Hy). by eapply Hpj.
    - intros p y Hy Hpn. apply (Hsr p y Hy). by eapply Hpj.
  Qed.

  (** ** enumerations *)
  Lemma first_matching_some sel chain x rest : first_matching (E:=E) sel chain = Some (x, rest) ->
    List.filter sel chain = x :: List.filter sel rest /\ length rest < length chain.
  Proof.
    induction chain as [|y chain IH]; simpl; [done|]. destruct (sel y) eqn:Es.
    - intros [= <- <-]. split; [done|lia].
    - intros H. destruct (IH H). split; [done|lia].
  Qed.
  Lemma first_matching_none sel chain : first_matching (E:=E) sel chain = None -> List.filter sel chain = [].
  Proof. induction chain as [|y chain IH]; simpl; [done|]. destruct (sel y); [done|auto]. Qed.

  Lemma next_bucket_some sel (bs : list (list node)) x rest bs' : next_bucket sel bs = Some (x, rest, bs') ->
    List.filter sel (concat bs) = x :: List.filter sel (rest ++ concat bs') /\
    length (rest ++ concat bs') < length (concat bs).
  Proof.
    induction bs as [|c bs IH]; simpl; [done|].
    destruct (first_matching sel c) as [[y r]|] eqn:F.
    - intros [= -> -> ->]. apply first_matching_some in F as [F Hl].
      rewrite !List.filter_app, F, !app_length. split; [done|lia].
    - intros H. destruct (IH H) as [H1 H2]. rewrite List.filter_app, (first_matching_none _ _ F).
      split; [done|]. rewrite (app_length c). lia.
  Qed.
  Lemma next_bucket_none sel (bs : list (list node)) : next_bucket sel bs = None -> List.filter sel (concat bs) = [].
  Proof.
    induction bs as [|c bs IH]; simpl; [done|].
    destruct (first_matching sel c) as [[y r]|] eqn:F; [done|].
    intros H. by rewrite List.filter_app, (first_matching_none _ _ F), IH.
  Qed.

  Lemma full_next_spec sel (rest : list node) bs :
    match full_next sel rest bs with
    | Some (x, rest', bs') => List.filter sel (rest ++ concat bs) = x :: List.filter sel (rest' ++ concat bs') /\
        length (rest' ++ concat bs') < length (rest ++ concat bs)
    | None => List.filter sel (rest ++ concat bs) = []
    end.
  Proof.
    unfold full_next. destruct (first_matching sel rest) as [[x r]|] eqn:F.
    - apply first_matching_some in F as [F Hl]. rewrite !List.filter_app, F, !app_length. split; [done|lia].
    - destruct (next_bucket sel bs) as [[[x r] bs']|] eqn:Nb.
      + apply next_bucket_some in Nb as [H1 H2].
        rewrite List.filter_app, (first_matching_none _ _ F). split; [done|]. rewrite !app_length in *. lia.
      + by rewrite List.filter_app, (first_matching_none _ _ F), (next_bucket_none _ _ Nb).
  Qed.

  Lemma full_from_spec sel fuel : forall (x : node) rest bs, length (rest ++ concat bs) < fuel ->
    full_from fuel sel (Some (x, rest, bs)) = Some (x :: List.filter sel (rest ++ concat bs)).
  Proof.
    induction fuel as [|fuel IH]; intros x rest bs Hl; [lia|]. cbn [full_from].
    pose proof (full_next_spec sel rest bs) as Hn.
    destruct (full_next sel rest bs) as [[[y r] bs']|].
    - destruct Hn as [-> Hlen]. rewrite IH by lia. done.
    - rewrite Hn. destruct fuel; done.
  Qed.

  Lemma full_enumerate_ok t fuel sel : length (nodes t) < fuel ->
    nt_full_enumerate fuel sel t = Some (List.filter sel (nodes t)).
  Proof.
    intros Hf. unfold nt_full_enumerate, nodes in *.
    assert (match first_node (buckets t) with
            | Some (x, r, bs) => concat (buckets t) = x :: r ++ concat bs
            | None => concat (buckets t) = [] end) as Hfirst.
    { clear Hf. induction (buckets t) as [|[|y c] bs IH]; simpl; [done|done|done]. }
    destruct (first_node (buckets t)) as [[[x r] bs]|].
    - rewrite Hfirst in *. simpl in Hf. cbn [List.filter]. destruct (sel x).
      + by rewrite full_from_spec by lia.
      + pose proof (full_next_spec sel r bs) as Hn.
        destruct (full_next sel r bs) as [[[y r'] bs']|].
        * destruct Hn as [-> Hlen]. apply full_from_spec. lia.
        * rewrite Hn. by destruct fuel.
    - rewrite Hfirst. by destruct fuel.
  Qed.

  Lemma prefix_strict_length (a b : name) : a `prefix_of` b -> a <> b -> length a < length b.
  Proof.
    intros [l ->] Hne. rewrite app_length. destruct l; [by rewrite app_nil_r in Hne|simpl; lia].
  Qed.
  Notation longer := (fun a b : node => length (n_name b) < length (n_name a)).
  Lemma up_matches_ok t sel : nt_inv t -> forall fuel n x, length n < fuel -> abs t !! n = Some x ->
    exists l, up_matches e0 hc opts fuel sel x t = Some l /\ NoDup l /\ StronglySorted longer l /\
      forall y, y ∈ l <-> abs t !! n_name y = Some y /\ sel y = true /\ n_name y `prefix_of` n /\ n_name y <> n.
  Proof.
    intros Inv. induction fuel as [|fuel IH]; intros n x Hf Hx; [lia|]. cbn [up_matches].
    rewrite (ti_parent _ (proj2 Inv) n x Hx). destruct (decide (n = [])) as [->|Hn0].
    - exists []. split; [done|]. split; [constructor|]. split; [constructor|]. intros y. split; [mem|].
      intros (_ & _ & Hp & Hne). by apply prefix_nil_inv in Hp.
    - destruct (ti_closed _ (proj2 Inv) n) as [px Hpx]; [eauto|].
      rewrite deref_abs, Hpx by (apply Inv || done).
      destruct (IH (par n) px) as (l & -> & Hnd & Hso & Hl); [|done|].
      { rewrite par_length. destruct n; simpl in *; [done|lia]. }
      pose proof (ti_name _ (proj2 Inv) _ _ Hpx) as Hpn.
      eexists. split; [done|]. 
      assert (forall y : node, n_name y `prefix_of` n /\ n_name y <> n <-> n_name y `prefix_of` par n) as Hpp.
      { intros y. split; [intros [? ?]; by apply prefix_par|]. by apply prefix_of_par. }
      assert (forall y : node, abs t !! n_name y = Some y -> n_name y = par n -> y = px) as Heq.
      { intros y Hy Hyn. rewrite Hyn in Hy. by simplify_eq. }
      destruct (sel px) eqn:Es; (split; [|split; [|]]).
      + apply NoDup_cons. split; [|done]. rewrite Hl, Hpn. naive_solver.
      + constructor; [done|]. apply Forall_forall. intros y (_ & _ & Hp1 & Hp2)%Hl. rewrite Hpn.
        apply prefix_strict_length; done.
      + intros y. rewrite elem_of_cons, Hl. split.
        * intros [->|(? & ? & ? & ?)].
          -- rewrite Hpn. split_and!; try done; [apply par_prefix|].
             intros E0. apply (f_equal length) in E0. rewrite par_length in E0. destruct n; simpl in *; [done|lia].
          -- destruct (proj2 (Hpp y)) as [? ?]; done.
        * intros (Hy & Hs & Hp1 & Hp2). destruct (decide (n_name y = par n)) as [He|Hne].
          -- left. by apply Heq.
          -- right. split_and!; try done. by apply Hpp.
      + done.
      + done.
      + intros y. rewrite Hl. split.
        * intros (? & ? & ? & ?). destruct (proj2 (Hpp y)) as [? ?]; done.
        * intros (Hy & Hs & Hp1 & Hp2). split_and!; try done; [by apply Hpp|].
          intros He. rewrite (Heq y Hy He) in Hs. congruence.
  Qed.

  Lemma find_all_ok t n sel : nt_inv t ->
    exists l, nt_find_all e0 hc opts n sel t = Some l /\ NoDup l /\ StronglySorted longer l /\
      forall y, y ∈ l <-> abs t !! n_name y = Some y /\ sel y = true /\ n_name y `prefix_of` n.
  Proof.
    intros Inv. unfold nt_find_all. destruct (lpm_ok t n sel Inv) as (r & -> & Hr). destruct r as [x|]; simpl in Hr.
    - destruct Hr as (Hs & Hx & Hp & Hlong).
      destruct (up_matches_ok t sel Inv (S (length (n_name x))) (n_name x) x ltac:(lia) Hx) as (l & -> & Hnd & Hso & Hl).
      rewrite Hs. eexists. split; [done|]. split; [|split].
      + apply NoDup_cons. split; [|done]. rewrite Hl. naive_solver.
      + constructor; [done|]. apply Forall_forall. intros y (_ & _ & Hp1 & Hp2)%Hl.
        apply prefix_strict_length; done.
      + intros y. rewrite elem_of_cons, Hl. split.
        * intros [->|(? & ? & ? & _)]; split_and!; try done. by etrans.
        * intros (Hy & Hsy & Hpy). destruct (decide (n_name y = n_name x)) as [He|Hne].
          -- left. rewrite He in Hy. congruence.
          -- right. split_and!; try done.
             destruct (Nat.le_gt_cases (length (n_name y)) (length (n_name x))) as [Hle|Hgt].
             ++ destruct (prefix_weak_total _ _ _ Hpy Hp) as [?|Hxy]; [done|].
                destruct Hxy as [l2 Hl2]. exfalso. apply Hne. rewrite Hl2 in Hle. rewrite app_length in Hle.
                destruct l2; simpl in Hle; [by rewrite app_nil_r in Hl2|lia].
             ++ exfalso. rewrite (Hlong _ y Hy Hpy Hgt) in Hsy. done.
    - exists []. split; [done|]. split; [constructor|]. split; [constructor|]. intros y. split; [mem|].
      intros (Hy & Hsy & Hpy). by rewrite (Hr _ y Hy Hpy) in Hsy.
  Qed.
End nt.
