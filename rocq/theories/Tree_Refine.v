(** The hash table with its links and the prefix-closed map of Tree_Model.v agree on
    every operation, so what is proved about the tables over the map holds over the
    hash table. *)
From stdpp Require Import gmap.
From Verif Require Import Lib Name_Model Name_Proof Nt_Model Nt_Spec Nt_Tree Nt_Run Tree_Model Tree_Proof.

Section refine.
  Context {E : Type} (e0 : E) (hs : E -> bool) (hc : comp -> N) (opts : ht_options) (Hopts : options_ok opts).
  Notation hashtable := (hashtable (E:=E)).
  Notation stored := (stored e0 hc opts).
  Notation reachable := (nt_reachable e0 hs hc opts).
  Notation entry t n := (nt_find_exact e0 hc opts n None t).

  Definition agrees (t : hashtable) (m : gmap name E) : Prop := forall n, stored t n = m !! n.

  Lemma agrees_closed t m : reachable t -> agrees t m -> closed m.
  Proof.
    intros R A n p. cbv beta. rewrite <- !A. exact (run_closed e0 hs hc opts Hopts t R n p).
  Qed.
  Lemma agrees_depth t m k : reachable t -> agrees t m -> is_Some (m !! k) -> length k <= 32.
  Proof. intros R A. rewrite <- A. exact (run_depth e0 hs hc opts Hopts t k R). Qed.

  Lemma refine_new : agrees (ht_new opts) ∅.
  Proof. intros n. rewrite lookup_empty. exact (run_new e0 hs hc opts Hopts n). Qed.

  Lemma refine_lookup t m n : reachable t -> agrees t m -> length n <= 32 ->
    exists t' m', nt_lookup e0 hc opts n (length n) t = Some (t', n) /\ t_lookup e0 n m = Some m' /\ reachable t' /\ agrees t' m'.
  Proof.
    intros R A L. destruct (run_lookup e0 hs hc opts Hopts t n (length n) R) as (t' & H1 & R' & H2); [lia|lia|].
    rewrite firstn_all in H1, H2. destruct (t_lookup_ok e0 hs n m L) as (m' & H3 & H4).
    exists t', m'. split; [done|]. split; [done|]. split; [done|]. intros k. rewrite H2, A. symmetry. apply H4.
  Qed.
  Lemma refine_set t m n e : reachable t -> agrees t m -> is_Some (stored t n) ->
    reachable (nt_set_tables n e t) /\ agrees (nt_set_tables n e t) (<[n := e]> m).
  Proof.
    intros R A S. destruct (run_set e0 hs hc opts Hopts t n e R S) as [R' H]. split; [done|].
    intros k. rewrite H, A. case_bool_decide; subst; [by rewrite lookup_insert|by rewrite lookup_insert_ne].
  Qed.
  Lemma garbage_dec (m : gmap name E) n k : {garbage_above hs (fun q => m !! q) n k} + {~ garbage_above hs (fun q => m !! q) n k}.
  Proof.
    destruct (decide (k `prefix_of` n)); [|right; by intros []].
    destruct (decide (map_Forall (fun q e => k `prefix_of` q -> q `prefix_of` n /\ hs e = false) m)) as [H|H].
    - left. split; [done|]. intros q e Hq. exact (H q e Hq).
    - right. intros [_ Hg]. apply H. intros q e Hq. exact (Hg q e Hq).
  Qed.
  Lemma refine_erase t m n a : reachable t -> agrees t m -> is_Some (stored t n) ->
    exists t' k, nt_erase_if_empty e0 hs hc opts n a t = Some (t', k) /\ reachable t' /\ agrees t' (t_erase_if_empty hs n a m).
  Proof.
    intros R A S. destruct (run_erase e0 hs hc opts Hopts t n a R S) as (t' & k & H1 & R' & H2 & _).
    exists t', k. split; [done|]. split; [done|]. rewrite A in S.
    destruct (t_erase_ok e0 hs n a m (agrees_closed t m R A) S) as [_ H3].
    intros q. destruct (H2 q) as [Ha Hb]. destruct (H3 q) as [Hc Hd].
    assert (Hg : garbage_above hs (stored t) n q <-> garbage_above hs (fun x => m !! x) n q).
    { split; apply garbage_ext; intros x; by rewrite A. }
    destruct (garbage_dec m n q) as [g|g].
    - destruct (decide (a = true \/ q = n)) as [d|d].
      + rewrite Ha by (rewrite Hg; done). symmetry. by apply Hc.
      + rewrite Hb by tauto. rewrite A. symmetry. apply Hd. tauto.
    - rewrite Hb by tauto. rewrite A. symmetry. apply Hd. tauto.
  Qed.

  Lemma entry_stored t n : stored t n = n_tables <$> entry t n.
  Proof. done. Qed.
  Lemma sel_iff t m sel q n : reachable t -> agrees t m ->
    (exists y, entry t q = Some y /\ sel (n_name y) (n_tables y) = true /\ q `prefix_of` n) <->
    (q `prefix_of` n /\ exists e, m !! q = Some e /\ sel q e = true).
  Proof.
    intros R A. split.
    - intros (y & Hy & Hs & Hp). split; [done|]. destruct (run_links e0 hs hc opts Hopts t q y R Hy) as (Hn & _).
      exists (n_tables y). rewrite <- A, entry_stored, Hy. rewrite Hn in Hs. done.
    - intros [Hp (e & He & Hs)]. rewrite <- A, entry_stored in He. destruct (entry t q) as [y|] eqn:Ey; [|done].
      injection He as <-. destruct (run_links e0 hs hc opts Hopts t q y R Ey) as (Hn & _). exists y. by rewrite Hn.
  Qed.
  Lemma refine_lpm t m n sel : reachable t -> agrees t m ->
    exists r, nt_lpm e0 hc opts n (fun x => sel (n_name x) (n_tables x)) t = Some r /\
      (fun x => (n_name x, n_tables x)) <$> r = t_lpm n sel m.
  Proof.
    intros R A. destruct (run_lpm e0 hs hc opts Hopts t n (fun x => sel (n_name x) (n_tables x)) R) as (r & H1 & H2 & H3).
    exists r. split; [done|].
    destruct (t_lpm_ok e0 hs n sel m) as [H4 H5]; [intros k; by apply (agrees_depth t)|].
    destruct r as [x|]; destruct (t_lpm n sel m) as [[p e]|]; simpl in *.
    - destruct H2 as [Ha Hb]. destruct H4 as [Hc Hd].
      assert (Hp : p `prefix_of` n) by apply Hc. assert (Hx : n_name x `prefix_of` n) by (destruct Ha as (? & ? & ? & ?); done).
      apply (sel_iff t m sel _ n R A) in Hc. apply (sel_iff t m sel _ n R A) in Ha. apply Hb in Hc. apply Hd in Ha.
      assert (Heq : n_name x = p).
      { apply take_prefix_iff in Hp as [-> ?]. apply take_prefix_iff in Hx as [-> ?]. f_equal. lia. }
      f_equal. f_equal; [done|]. specialize (H5 p e eq_refl). specialize (H3 x eq_refl). rewrite Heq in H3.
      rewrite <- A, entry_stored, H3 in H5. by injection H5.
    - destruct H2 as [Ha _]. apply (sel_iff t m sel _ n R A) in Ha. by apply H4 in Ha.
    - destruct H4 as [Hc _]. apply (sel_iff t m sel _ n R A) in Hc. by apply H2 in Hc.
    - done.
  Qed.
  Lemma sorted_same {A} (f : A -> nat) (l l' : list A) :
    StronglySorted (fun a b => f b < f a) l -> StronglySorted (fun a b => f b < f a) l' ->
    (forall x, x ∈ l <-> x ∈ l') -> l = l'.
  Proof.
    revert l'. induction l as [|a l IH]; intros l' Hs Hs' Hx.
    - destruct l' as [|b l']; [done|]. exfalso. apply (not_elem_of_nil b), Hx. left.
    - destruct l' as [|b l'].
      + exfalso. apply (not_elem_of_nil a), Hx. left.
      + inversion Hs as [|? ? Hs1 Ha]; inversion Hs' as [|? ? Hs1' Hb]; subst. rewrite Forall_forall in Ha, Hb.
        assert (a = b).
        { pose proof (proj1 (Hx a) (elem_of_list_here _ _)) as [?|Ha']%elem_of_cons; [done|].
          pose proof (proj2 (Hx b) (elem_of_list_here _ _)) as [?|Hb']%elem_of_cons; [done|].
          specialize (Ha _ Hb'). specialize (Hb _ Ha'). lia. }
        subst b. f_equal. apply IH; [done|done|]. intros x. specialize (Hx x). rewrite !elem_of_cons in Hx. split; intros H.
        * destruct (proj1 Hx (or_intror H)) as [->|?]; [|done]. specialize (Ha a H). lia.
        * destruct (proj2 Hx (or_intror H)) as [->|?]; [|done]. specialize (Hb a H). lia.
  Qed.
  Lemma refine_all t m n sel : reachable t -> agrees t m ->
    exists l, nt_find_all e0 hc opts n (fun x => sel (n_name x) (n_tables x)) t = Some l /\
      (fun x => (n_name x, n_tables x)) <$> l = t_all_matches n sel m.
  Proof.
    intros R A. destruct (run_all e0 hs hc opts Hopts t n (fun x => sel (n_name x) (n_tables x)) R) as (l & H1 & H2 & H3).
    exists l. split; [done|].
    destruct (t_all_matches_ok e0 hs n sel m) as [H4 H5]; [intros k; by apply (agrees_depth t)|].
    apply (sorted_same (fun x => length x.1)); [|done|].
    - clear H1 H3 H4 H5. induction l as [|x l IH]; [constructor|]. inversion H2 as [|? ? Hs Ha]; subst.
      rewrite fmap_cons. constructor; [by apply IH|]. apply Forall_forall. intros y (z & -> & Hz)%elem_of_list_fmap. exact (proj1 (Forall_forall _ _) Ha z Hz).
    - intros [p e]. rewrite H5, elem_of_list_fmap. split.
      + intros (x & [= -> ->] & Hx). apply H3 in Hx as (Hx & Hs & Hp). split; [|done]. by rewrite <- A, entry_stored, Hx.
      + intros (He & Hs & Hp). rewrite <- A, entry_stored in He. destruct (entry t p) as [y|] eqn:Ey; [|done].
        injection He as <-. destruct (run_links e0 hs hc opts Hopts t p y R Ey) as (Hn & _). exists y. rewrite Hn.
        split; [done|]. apply H3. by rewrite Hn.
  Qed.
  Lemma refine_partial t m p sel : reachable t -> agrees t m ->
    exists l f0, (forall fuel, f0 <= fuel -> nt_partial_enumerate e0 hc opts fuel p (fun x => sel (n_name x) (n_tables x)) t = Some l) /\
      NoDup l /\ forall q, q ∈ l <-> t_visited p sel m q = true.
  Proof.
    intros R A. destruct (run_partial e0 hs hc opts Hopts t p (fun x => sel (n_name x) (n_tables x)) R) as (l & f0 & H1 & H2 & _ & H3).
    exists l, f0. split; [done|]. split; [done|]. intros q. rewrite H3, (t_visited_ok hs p sel m q (agrees_closed t m R A)).
    assert (Hl : forall q y, entry t q = Some y -> n_name y = q /\ m !! q = Some (n_tables y)).
    { intros x y Hy. destruct (run_links e0 hs hc opts Hopts t x y R Hy) as (Hn & _). split; [done|]. by rewrite <- A, entry_stored, Hy. }
    assert (Hr : forall q e, m !! q = Some e -> exists y, entry t q = Some y /\ n_name y = q /\ n_tables y = e).
    { intros x e He. rewrite <- A, entry_stored in He. destruct (entry t x) as [y|] eqn:Ey; [|done]. injection He as <-.
      destruct (Hl x y Ey). by exists y. }
    split.
    - intros (y & Hy & Hp & Hs & Hz). destruct (Hl _ _ Hy) as [Hn Hm]. exists (n_tables y). split; [done|]. split; [done|].
      split; [by rewrite Hn in Hs|]. intros r e Hpr Hrq Hne He. destruct (Hr r e He) as (z & Ez & Hnz & Hez). subst e.
      specialize (Hz r z Hpr Hrq Hne Ez). by rewrite Hnz in Hz.
    - intros (e & He & Hp & Hs & Hz). destruct (Hr _ _ He) as (y & Ey & Hn & Hey). subst e. exists y. split; [done|]. split; [done|].
      rewrite Hn. split; [done|]. intros r z Hpr Hrq Hne Hzz. destruct (Hl _ _ Hzz) as [Hnz Hmz]. rewrite Hnz. by apply (Hz r _).
  Qed.
End refine.
