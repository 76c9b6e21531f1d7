From stdpp Require Import gmap.
From Verif Require Import Lib Name_Model Name_Proof Nt_Model Nt_Spec Nt_Tree Tree_Model.

Lemma elem_prefixes (n k : name) : k ∈ prefixes n <-> k `prefix_of` n.
Proof.
  unfold prefixes. rewrite elem_of_list_In, in_map_iff. split.
  - intros (i & <- & H). apply in_seq in H. apply take_prefix_iff.
    rewrite take_length. split; [f_equal; lia|lia].
  - intros [E L]%take_prefix_iff. exists (length k). split; [done|]. apply in_seq. lia.
Qed.

Section tree.
  Context {E : Type} (e0 : E) (has : E -> bool).
  Notation tree := (gmap name E).
  Implicit Type t : tree.

  Definition closed t : Prop := prefix_closed (fun n => t !! n).

  Lemma fold_insert_lookup (l : list name) t k :
    foldl (fun t p => match t !! p with Some _ => t | None => <[p := e0]> t end) t l !! k
    = match t !! k with Some e => Some e | None => if bool_decide (k ∈ l) then Some e0 else None end.
  Proof.
    revert t. induction l as [|p l IH]; intros t.
    - cbn [foldl]. destruct (t !! k); [done|]. rewrite bool_decide_eq_false_2; [done|apply not_elem_of_nil].
    - cbn [foldl]. rewrite IH. destruct (t !! p) eqn:Ep.
      + destruct (t !! k) eqn:Ek; [done|]. do 2 case_bool_decide; try done.
        * exfalso. apply H0. by right.
        * apply elem_of_cons in H0 as [->|?]; [congruence|done].
      + destruct (decide (k = p)) as [->|Hne].
        * rewrite lookup_insert, Ep. rewrite bool_decide_eq_true_2; [done|by left].
        * rewrite lookup_insert_ne by done. destruct (t !! k) eqn:Ek; [done|].
          do 2 case_bool_decide; try done.
          -- exfalso. apply H0. by right.
          -- apply elem_of_cons in H0 as [->|?]; done.
  Qed.

  Lemma t_lookup_ok n t : length n <= 32 ->
    exists t', t_lookup e0 n t = Some t' /\ after_lookup e0 n (fun k => t !! k) (fun k => t' !! k).
  Proof.
    intros L. unfold t_lookup. rewrite (proj2 (Nat.ltb_ge _ _)) by (unfold MAX_DEPTH; lia).
    eexists; split; [done|]. intros k. rewrite fold_insert_lookup.
    destruct (t !! k); [done|]. pose proof (elem_prefixes n k) as Hp.
    do 2 case_bool_decide; tauto.
  Qed.
  Lemma t_lookup_none n t : 32 < length n -> t_lookup e0 n t = None.
  Proof. intros L. unfold t_lookup. by rewrite (proj2 (Nat.ltb_lt _ _)) by (unfold MAX_DEPTH; lia). Qed.

  Lemma after_lookup_closed n t t' : closed t ->
    after_lookup e0 n (fun k => t !! k) (fun k => t' !! k) -> closed t'.
  Proof.
    intros C H k p [e Hk] Hp. rewrite H in Hk. rewrite H.
    destruct (t !! p) eqn:Ep; [done|]. destruct (t !! k) eqn:Ek.
    - destruct (C k p) as [? ?]; [by eexists|done|]. simpl in *. congruence.
    - case_bool_decide; [|done]. rewrite bool_decide_eq_true_2; [done|]. by transitivity k.
  Qed.

  Lemma t_has_children_iff n t :
    t_has_children n t = true <-> exists c, is_Some (t !! (n ++ [c])).
  Proof.
    unfold t_has_children. rewrite existsb_exists. split.
    - intros (k & Hk & [L H]%andb_prop). apply in_map_iff in Hk as ([k' e] & [= <-] & Hk).
      apply elem_of_list_In, elem_of_map_to_list in Hk.
      apply Nat.eqb_eq in L. apply name_eqb_eq in H.
      destruct (snoc_inv k') as (p & c & ->); [by intros ->|].
      rewrite app_length in L. simpl in L. rewrite take_app_alt in H by lia. subst p. eauto.
    - intros (c & e & H). exists (n ++ [c]). split.
      + apply in_map_iff. exists (n ++ [c], e). split; [done|].
        by apply elem_of_list_In, elem_of_map_to_list.
      + apply andb_true_intro. rewrite app_length. simpl. split; [apply Nat.eqb_eq; lia|].
        rewrite take_app. apply name_eqb_refl.
  Qed.

  Lemma t_is_empty_iff n t : closed t ->
    t_is_empty has n t = true <->
    is_Some (t !! n) /\ forall q e, t !! q = Some e -> n `prefix_of` q -> q = n /\ has e = false.
  Proof.
    intros C. unfold t_is_empty. destruct (t !! n) as [e|] eqn:En; [|split; [done|by intros [[] _]]].
    rewrite andb_true_iff, !negb_true_iff. split.
    - intros [Hh Hc]. split; [done|]. intros q e' Hq [k ->].
      destruct k as [|c k]; [rewrite app_nil_r in *; split; [done|congruence]|].
      exfalso. apply not_true_iff_false in Hc. apply Hc, t_has_children_iff. exists c.
      apply (C (n ++ c :: k)); [by eexists|]. exists k. by rewrite <- app_assoc.
    - intros [_ H]. split; [apply (H n e); done|]. apply not_true_iff_false.
      intros (c & e' & Hc)%t_has_children_iff. destruct (H _ _ Hc) as [Hx _]; [by exists [c]|].
      apply (f_equal length) in Hx. rewrite app_length in Hx. simpl in Hx. lia.
  Qed.

  Lemma delete_leaf_closed n t : closed t ->
    (forall q e, t !! q = Some e -> n `prefix_of` q -> q = n) -> closed (delete n t).
  Proof.
    intros C H k p [Hne [e Hk]]%lookup_delete_is_Some Hp.
    apply lookup_delete_is_Some. split.
    - intros <-. apply Hne. symmetry. by apply (H k e).
    - apply (C k); [by eexists|done].
  Qed.

  Lemma t_erase_loop_ok fuel n a t : closed t -> is_Some (t !! n) -> length n < fuel ->
    closed (t_erase_loop has fuel n a t) /\
    after_erase has n a (fun k => t !! k) (fun k => t_erase_loop has fuel n a t !! k).
  Proof.
    revert n t. induction fuel as [|fuel IH]; intros n t C Hsome L; [lia|]. simpl.
    destruct (t_is_empty has n t) eqn:Ee.
    - apply t_is_empty_iff in Ee as [[x Hx] He]; [|done].
      assert (C1 : closed (delete n t)).
      { apply delete_leaf_closed; [done|]. intros q e Hq Hp. by apply (He q e). }
      assert (Gn : garbage_above has (fun k => t !! k) n n).
      { split; [done|]. intros q e Hq Hp. destruct (He q e Hq Hp) as [-> ?]. done. }
      assert (Gk : forall k, k <> n -> ~ (garbage_above has (fun k => t !! k) n k /\ (false = true \/ k = n))).
      { intros k Hk [_ [|]]; done. }
      destruct a; [destruct n as [|c n']|].
      + split; [done|]. intros k. split.
        * intros [[Hp _] _]. apply prefix_nil_inv in Hp as ->. apply lookup_delete.
        * intros Hn. rewrite lookup_delete_ne; [done|]. intros <-. apply Hn. split; [exact Gn|by left].
      + set (n := c :: n') in *. destruct (IH (take (length n - 1) n) (delete n t)) as [C2 H2]; [done|apply lookup_delete_is_Some; split; [intros Hx'; apply (f_equal length) in Hx'; rewrite take_length in Hx'; simpl in Hx'; lia|apply (C n); [done|apply par_prefix]]|rewrite take_length; simpl in *; lia|].
        split; [done|]. intros k. specialize (H2 k) as [H2a H2b].
        assert (Hiff : k <> n -> garbage_above has (fun k => t !! k) n k <-> garbage_above has (fun k => delete n t !! k) (take (length n - 1) n) k).
        { intros Hk. fold (par n). split.
          - intros [Hp Hq]. split; [by apply prefix_par|]. intros q e [Hne Hqe]%lookup_delete_Some Hkq.
            destruct (Hq q e Hqe Hkq) as [? ?]. split; [|done]. apply prefix_par; [done|congruence].
          - intros [Hp Hq]. split; [by apply prefix_of_par in Hp as [? _]|]. intros q e Hqe Hkq.
            destruct (decide (q = n)) as [->|Hqn]; [split; [done|by apply (He n e)]|].
            destruct (Hq q e) as [? ?]; [by rewrite lookup_delete_ne by done|done|].
            split; [|done]. by apply prefix_of_par in H as [? _]. }
        destruct (decide (k = n)) as [->|Hkn].
        * split; [|intros Hn; exfalso; apply Hn; split; [exact Gn|by left]].
          intros _. rewrite H2b; [apply lookup_delete|]. intros [[Hp _] _].
          apply prefix_length in Hp. rewrite take_length in Hp. simpl in Hp. lia.
        * split.
          -- intros [G _]. apply H2a. split; [by apply Hiff|by left].
          -- intros Hn. rewrite H2b; [by rewrite lookup_delete_ne by done|].
             intros [G _]. apply Hn. split; [by apply Hiff|by left].
      + split; [done|]. intros k. split.
        * intros [_ [?| ->]]; [done|]. apply lookup_delete.
        * intros Hn. rewrite lookup_delete_ne; [done|]. intros <-. apply Hn. split; [exact Gn|by right].
    - split; [done|]. intros k. split; [|done]. intros [[Hp Hq] Ha].
      destruct (t !! k) as [e|] eqn:Ek; [|done]. exfalso.
      apply not_true_iff_false in Ee. apply Ee, t_is_empty_iff; [done|]. split; [done|].
      intros q e' Hqe Hnq. destruct (Hq q e' Hqe) as [Hqn ?]; [by transitivity n|].
      split; [|done]. by apply (anti_symm prefix).
  Qed.

  Lemma t_erase_ok n a t : closed t -> is_Some (t !! n) ->
    closed (t_erase_if_empty has n a t) /\
    after_erase has n a (fun k => t !! k) (fun k => t_erase_if_empty has n a t !! k).
  Proof. intros C H. apply t_erase_loop_ok; [done|done|lia]. Qed.

  (** entries that hold tables survive; nothing is added *)
  Lemma erase_keeps n a t t' k e : after_erase has n a (fun k => t !! k) (fun k => t' !! k) ->
    t !! k = Some e -> has e = true -> t' !! k = Some e.
  Proof.
    intros H Hk He. destruct (H k) as [_ H2]. rewrite H2; [done|]. intros [[_ G] _].
    destruct (G k e Hk) as [_ ?]; [done|]. congruence.
  Qed.
  Lemma erase_loop_sub fuel n a t k e : t_erase_loop has fuel n a t !! k = Some e -> t !! k = Some e.
  Proof.
    revert n t. induction fuel as [|fuel IH]; intros n t; [done|]. simpl.
    destruct (t_is_empty has n t); [|done].
    assert (Hd : delete n t !! k = Some e -> t !! k = Some e) by (by intros [_ ?]%lookup_delete_Some).
    destruct a; [|done]. destruct n; [done|]. intros H%IH. auto.
  Qed.
  Lemma erase_sub n a t k e : t_erase_if_empty has n a t !! k = Some e -> t !! k = Some e.
  Proof. apply erase_loop_sub. Qed.

  (** longest prefix match *)
  Lemma t_lpm_from_ok n sel t i : i <= length n ->
    is_longest (fun q => q `prefix_of` n /\ length q <= i /\ exists e, t !! q = Some e /\ sel q e = true)
      (fst <$> t_lpm_from n sel i t) /\
    (forall p e, t_lpm_from n sel i t = Some (p, e) -> t !! p = Some e).
  Proof.
    induction i as [|i IH]; intros L.
    - cbn [t_lpm_from]. change (take 0 n) with (@nil comp).
      destruct (t !! []) as [e|] eqn:Ee; [destruct (sel [] e) eqn:Es|]; simpl.
      + split; [|by intros ? ? [= <- <-]]. split; [|by intros q (_ & ? & _)].
        split; [apply prefix_nil|]. split; [simpl; lia|]. eauto.
      + split; [|done]. intros q (_ & Hl & e' & Hq & Hs). destruct q; [congruence|simpl in Hl; lia].
      + split; [|done]. intros q (_ & Hl & e' & Hq & Hs). destruct q; [congruence|simpl in Hl; lia].
    - destruct IH as [IH1 IH2]; [lia|].
      assert (Hbase : (forall e, t !! take (S i) n = Some e -> sel (take (S i) n) e = false) ->
        is_longest (fun q => q `prefix_of` n /\ length q <= S i /\ exists e, t !! q = Some e /\ sel q e = true)
          (fst <$> t_lpm_from n sel i t)).
      { intros Hno. assert (Hq : forall q, q `prefix_of` n -> length q <= S i -> (exists e, t !! q = Some e /\ sel q e = true) -> length q <= i).
        { intros q Hp Hl (e & Hq & Hs). destruct (decide (length q = S i)) as [Hl'|]; [|lia].
          apply take_prefix_iff in Hp as [Hp _]. rewrite Hl' in Hp. rewrite Hp in Hq, Hs.
          rewrite (Hno _ Hq) in Hs. done. }
        destruct (t_lpm_from n sel i t) as [[p e]|]; simpl in *.
        - destruct IH1 as [(H1 & H2 & H3) H4]. split; [split; [done|split; [lia|done]]|].
          intros q (Hp & Hl & Hx). apply H4. auto.
        - intros q (Hp & Hl & Hx). apply (IH1 q). auto. }
      cbn [t_lpm_from]. destruct (t !! take (S i) n) as [e|] eqn:Ee; [destruct (sel (take (S i) n) e) eqn:Es|].
      + split; [|by intros ? ? [= <- <-]]. simpl. split.
        * split; [apply take_prefix_iff; rewrite take_length, Nat.min_l by lia; split; [done|lia]|].
          rewrite take_length. split; [lia|]. exists e. done.
        * intros q (_ & ? & _). rewrite take_length. lia.
      + split; [|done]. apply Hbase. congruence.
      + split; [|done]. apply Hbase. congruence.
  Qed.
  Lemma t_lpm_ok n sel t : (forall k, is_Some (t !! k) -> length k <= 32) ->
    is_longest (fun q => q `prefix_of` n /\ exists e, t !! q = Some e /\ sel q e = true)
      (fst <$> t_lpm n sel t) /\
    (forall p e, t_lpm n sel t = Some (p, e) -> t !! p = Some e).
  Proof.
    intros D. destruct (t_lpm_from_ok n sel t (Nat.min (length n) MAX_DEPTH)) as [H1 H2]; [lia|].
    split; [|done]. fold (t_lpm n sel t) in H1. 
    assert (Hq : forall q, q `prefix_of` n -> (exists e, t !! q = Some e /\ sel q e = true) -> length q <= Nat.min (length n) MAX_DEPTH).
    { intros q Hp (e & Hq & _). apply prefix_length in Hp. assert (length q <= 32) by (apply D; eauto). unfold MAX_DEPTH. lia. }
    destruct (t_lpm n sel t) as [[p e]|]; simpl in *.
    - destruct H1 as [(Ha & Hb & Hc) Hd]. split; [done|]. intros q (Hp & Hx). apply Hd. auto.
    - intros q (Hp & Hx). apply (H1 q). auto.
  Qed.

  (** all matches *)
  Lemma t_all_matches_ok n sel t : (forall k, is_Some (t !! k) -> length k <= 32) ->
    StronglySorted (fun a b : name * E => length b.1 < length a.1) (t_all_matches n sel t) /\
    forall p e, (p, e) ∈ t_all_matches n sel t <-> t !! p = Some e /\ sel p e = true /\ p `prefix_of` n.
  Proof.
    intros D. unfold t_all_matches. set (m := Nat.min (length n) MAX_DEPTH).
    assert (Hm : m <= length n) by (unfold m; lia).
    split.
    - clear D. induction m as [|m IH]; [simpl; destruct (t !! take 0 n) as [e|]; [destruct (sel _ e)|]; repeat constructor|].
      rewrite seq_S, rev_app_distr. simpl rev. simpl app. cbn [omap list_omap].
      assert (IH' : m <= length n) by lia. specialize (IH IH').
      assert (Hall : Forall (fun b : name * E => length b.1 <= m) (omap (fun i => match t !! take i n with
                   | Some e => if sel (take i n) e then Some (take i n, e) else None
                   | None => None end) (rev (seq 0 (S m))))).
      { apply Forall_forall. intros [p e] (i & Hi & Hx)%elem_of_list_omap.
        apply elem_of_list_In in Hi. apply in_rev, in_seq in Hi.
        destruct (t !! take i n) as [e'|]; [|done]. destruct (sel _ e'); [|done].
        injection Hx as <- <-. simpl. rewrite take_length. lia. }
      change (omap ?f (?x :: ?l)) with (match f x with Some y => y :: omap f l | None => omap f l end). cbv beta.
      destruct (t !! take (S m) n) as [e|]; [destruct (sel _ e)|]; try done.
      constructor; [done|]. eapply Forall_impl; [exact Hall|]. simpl. intros [p e'] Hl. simpl in *.
      change (length p < length (take (S m) n)). rewrite take_length. lia.
    - intros p e. rewrite elem_of_list_omap. split.
      + intros (i & Hi & Hx). apply elem_of_list_In in Hi. apply in_rev, in_seq in Hi.
        destruct (t !! take i n) as [e'|] eqn:Ee; [|done]. destruct (sel _ e') eqn:Es; [|done].
        injection Hx as <- <-. split; [done|]. split; [done|]. apply take_prefix_iff.
        rewrite take_length, Nat.min_l by lia. split; [done|lia].
      + intros (Hp & Hs & Hpre). pose proof Hpre as Hl%prefix_length.
        apply take_prefix_iff in Hpre as [Hpre _].
        assert (length p <= 32) by (apply D; eauto).
        exists (length p). split; [apply elem_of_list_In; rewrite <- in_rev; apply in_seq; unfold m, MAX_DEPTH; lia|].
        rewrite <- Hpre, Hp, Hs. done.
  Qed.

  (** subtree enumeration *)
  Lemma t_visited_ok p sel t q : closed t ->
    t_visited p sel t q = true <->
    exists e, t !! q = Some e /\ p `prefix_of` q /\ (sel q e).1 = true /\
      forall r e', p `prefix_of` r -> r `prefix_of` q -> r <> q -> t !! r = Some e' -> (sel r e').2 = true.
  Proof.
    intros C. unfold t_visited. destruct (t !! q) as [e|] eqn:Eq; [|split; [done|by intros (? & ? & _)]].
    rewrite !andb_true_iff, name_eqb_eq, Nat.leb_le, forallb_forall. split.
    - intros [[[Hp Hl] Hs] Hall]. exists e. split; [done|]. split; [apply take_prefix_iff; done|].
      split; [done|]. intros r e' Hpr Hrq Hne Hr. pose proof Hrq as [Hr1 Hr2]%take_prefix_iff.
      apply prefix_length in Hpr. specialize (Hall (length r)). rewrite <- Hr1, Hr in Hall. apply Hall.
      apply in_seq. assert (length r <> length q); [|lia]. intros Hx. apply Hne.
      rewrite Hr1, Hx. by rewrite firstn_all.
    - intros (e' & [= <-] & [Hp Hl]%take_prefix_iff & Hs & Hall).
      split; [split; [split; [done|lia]|done]|]. intros i Hi%in_seq.
      destruct (t !! take i q) as [e'|] eqn:Ee; [|done]. apply (Hall (take i q) e').
      + apply take_prefix_iff. rewrite take_take, Nat.min_l, take_length by lia. split; [done|lia].
      + apply take_prefix_iff. rewrite take_length, Nat.min_l by lia. split; [done|lia].
      + intros Hx. apply (f_equal length) in Hx. rewrite take_length in Hx. lia.
      + done.
  Qed.
End tree.
