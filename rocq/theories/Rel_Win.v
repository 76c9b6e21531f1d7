(** The window of outstanding TxSequences: proofs. *)
From stdpp Require Import gmap.
From Verif Require Import Lib Lp_Model Rel_Model Rel_Spec.

Local Open Scope N_scope.

Lemma seq_sub_ge a b : a < SEQ -> b <= a -> seq_sub a b = a - b.
Proof.
  intros Ha Hb. unfold seq_sub. rewrite (N.mod_small b) by (unfold SEQ in *; lia).
  replace (a + SEQ - b) with ((a - b) + 1 * SEQ) by (unfold SEQ in *; lia).
  rewrite N.mod_add by (unfold SEQ; lia). apply N.mod_small. unfold SEQ in *; lia.
Qed.
Lemma seq_sub_lt a b : b < SEQ -> a < b -> seq_sub a b = a + SEQ - b.
Proof.
  intros Hb Ha. unfold seq_sub. rewrite (N.mod_small b) by (unfold SEQ in *; lia).
  apply N.mod_small. unfold SEQ in *; lia.
Qed.
Lemma seq_next_eq a : a < SEQ -> seq_next a = if decide (a = SEQ - 1) then 0 else a + 1.
Proof.
  intros Ha. unfold seq_next. destruct (decide _) as [->|].
  - reflexivity.
  - apply N.mod_small. unfold SEQ in *; lia.
Qed.
Lemma seq_next_lt a : seq_next a < SEQ.
Proof. unfold seq_next. apply N.mod_lt. unfold SEQ; lia. Qed.
Ltac seqs :=
  repeat match goal with
         | |- context [seq_sub ?a ?b] => destruct (N.lt_ge_cases a b); [rewrite (seq_sub_lt a b) in * by (assumption || lia)|rewrite (seq_sub_ge a b) in * by (assumption || lia)]
         | H : context [seq_sub ?a ?b] |- _ => destruct (N.lt_ge_cases a b); [rewrite (seq_sub_lt a b) in * by (assumption || lia)|rewrite (seq_sub_ge a b) in * by (assumption || lia)]
         end.
Lemma seq_sub_shift k h f last :
  k < SEQ -> h < SEQ -> f < SEQ -> last < SEQ ->
  seq_sub h f <= seq_sub k f -> seq_sub k f <= seq_sub last f ->
  seq_sub k h <= seq_sub last h /\ seq_sub last h <= seq_sub last f.
Proof. intros. seqs; lia. Qed.
Lemma seq_sub_bound a b : a < SEQ -> b < SEQ -> seq_sub a b < SEQ.
Proof. intros. seqs; lia. Qed.
Lemma seq_sub_refl a : a < SEQ -> seq_sub a a = 0.
Proof. intros. rewrite seq_sub_ge; lia. Qed.
Lemma seq_sub_next last f : last < SEQ -> f < SEQ -> seq_next last <> f -> seq_sub (seq_next last) f = seq_sub last f + 1.
Proof. intros. rewrite (seq_next_eq last) in * by done. destruct (decide _); seqs; lia. Qed.
Lemma seq_sub_full last f : last < SEQ -> f < SEQ -> seq_next last = f -> seq_sub last f + 1 = SEQ.
Proof. intros Hl Hf E. rewrite (seq_next_eq last) in * by done. destruct (decide _); seqs; unfold SEQ in *; lia. Qed.
Lemma seq_sub_inj a b f : a < SEQ -> b < SEQ -> f < SEQ -> seq_sub a f = seq_sub b f -> a = b.
Proof. intros. seqs; lia. Qed.

(** * The window *)
Definition win (m : gmap N unacked) (first : option N) (last : N) : Prop :=
  last < SEQ /\ (forall k, is_Some (m !! k) -> k < SEQ) /\
  match first with
  | None => m = ∅
  | Some f => is_Some (m !! f) /\ forall k, is_Some (m !! k) -> seq_sub k f <= seq_sub last f
  end.

Lemma keys_from_elem k x m : x ∈ keys_from k m <-> is_Some (m !! x).
Proof.
  unfold keys_from. rewrite elem_of_app, !elem_of_list_In, !filter_In, <- !elem_of_list_In, merge_sort_Permutation, elem_of_elements, elem_of_dom.
  rewrite N.leb_le, N.ltb_lt. split; [tauto|]. intros H. destruct (N.le_gt_cases k x); auto.
Qed.
Lemma keys_from_nodup k m : NoDup (keys_from k m).
Proof.
  unfold keys_from. apply NoDup_app.
  assert (Hn : NoDup (merge_sort N.le (elements (dom m)))) by (rewrite merge_sort_Permutation; apply NoDup_elements).
  split; [|split].
  - apply NoDup_ListNoDup, List.NoDup_filter, NoDup_ListNoDup; done.
  - intros x Hx Hy. rewrite !elem_of_list_In, !filter_In, N.leb_le, N.ltb_lt in *. lia.
  - apply NoDup_ListNoDup, List.NoDup_filter, NoDup_ListNoDup; done.
Qed.
Lemma sorted_head (l : list N) : Sorted N.le l -> forall (P : N -> bool) h, head (List.filter P l) = Some h -> forall x, x ∈ List.filter P l -> h <= x.
Proof.
  intros HS P h. apply Sorted_StronglySorted in HS; [|intros ???; lia]. induction HS as [|a l HS IH Ha]; [done|]. cbn.
  destruct (P a) eqn:E; [|auto].
  intros [= ->] x [->|Hx]%elem_of_cons; [lia|]. rewrite Forall_forall in Ha. apply Ha. rewrite elem_of_list_In, filter_In in Hx. apply elem_of_list_In. tauto.
Qed.
Lemma keys_from_head k m h :
  k < SEQ -> (forall x, is_Some (m !! x) -> x < SEQ) -> head (keys_from k m) = Some h ->
  is_Some (m !! h) /\ forall x, is_Some (m !! x) -> seq_sub h k <= seq_sub x k.
Proof.
  intros Hk Hm Hh.
  assert (He : is_Some (m !! h)) by (apply (keys_from_elem k); destruct (keys_from k m); [done|]; injection Hh as ->; left).
  split; [done|]. intros x Hx. pose proof (Hm x Hx). pose proof (Hm h He). apply (keys_from_elem k) in Hx.
  revert Hh Hx. unfold keys_from. set (ks := merge_sort N.le (elements (dom m))).
  assert (HS : Sorted N.le ks) by (apply Sorted_merge_sort; intros ??; lia).
  pose proof (sorted_head ks HS (fun x => k <=? x)) as H1. pose proof (sorted_head ks HS (fun x => x <? k)) as H2.
  assert (F1 : forall y, y ∈ List.filter (fun x => k <=? x) ks -> k <= y) by (intros y; rewrite elem_of_list_In, filter_In, N.leb_le; tauto).
  assert (F2 : forall y, y ∈ List.filter (fun x => x <? k) ks -> y < k) by (intros y; rewrite elem_of_list_In, filter_In, N.ltb_lt; tauto).
  set (A := List.filter (fun x => k <=? x) ks) in *. set (B := List.filter (fun x => x <? k) ks) in *. clearbody A B.
  destruct A as [|a A]; cbn [app head].
  - intros Hb Hx. destruct B as [|b B]; [done|]. injection Hb as ->. pose proof (H2 _ eq_refl x Hx). pose proof (F2 _ Hx).
    assert (h < k) by (apply F2; left). rewrite !seq_sub_lt by done. lia.
  - intros [= ->] Hx. assert (k <= h) by (apply F1; left). rewrite (seq_sub_ge h) by done. apply (elem_of_app (h :: A)) in Hx as [Hx|Hx].
    + pose proof (H1 _ eq_refl x Hx). rewrite (seq_sub_ge x) by (done || lia). lia.
    + pose proof (F2 _ Hx). rewrite seq_sub_lt by done. lia.
Qed.
Lemma keys_from_nonempty k m : m <> ∅ -> exists h, head (keys_from k m) = Some h.
Proof.
  intros Hm. apply map_choose in Hm as (i & x & Hi). assert (Hx : i ∈ keys_from k m) by (apply keys_from_elem; eauto).
  destruct (keys_from k m); [by apply elem_of_nil in Hx|]. eauto.
Qed.

(** * deleting *)
(** only the fragments and the window start differ *)
Definition frame (s s' : rel) : Prop := s' = set_first (r_first s') (set_unacked (r_unacked s') s).
Definition winr (s : rel) : Prop := win (r_unacked s) (r_first s) (r_last s).
Lemma frame_refl s : frame s s. Proof. destruct s. reflexivity. Qed.
Lemma frame_trans s s1 s2 : frame s s1 -> frame s1 s2 -> frame s s2.
Proof. unfold frame. intros E1 E2. rewrite E2, E1. reflexivity. Qed.

Lemma delete_ok tx s :
  winr s -> is_Some (r_unacked s !! tx) ->
  exists s', delete_unacked tx s = Some s' /\ frame s s' /\ r_unacked s' = delete tx (r_unacked s) /\ winr s' /\ span s' <= span s.
Proof.
  intros (Hl & Hk & Hf) [u Hu]. unfold delete_unacked. rewrite Hu.
  destruct (r_first s) as [f|] eqn:Ef; [|rewrite Hf, lookup_empty in Hu; done].
  destruct Hf as [[uf Huf] Hf]. rewrite Huf.
  assert (Hk' : forall k, is_Some (delete tx (r_unacked s) !! k) -> k < SEQ).
  { intros k [? [_ ?]%lookup_delete_Some]. eauto. }
  destruct (decide _) as [E|E]; [|destruct (N.eqb_spec f tx) as [->|Hne]].
  - eexists. split; [reflexivity|]. split; [destruct s; reflexivity|]. split; [reflexivity|].
    split; [split; [done|]; split; [done|]; cbn; done|]. unfold span. cbn. lia.
  - destruct (keys_from_nonempty tx _ E) as [h Hh].
    assert (Htx : tx < SEQ) by (apply Hk; eauto).
    destruct (keys_from_head _ _ _ Htx Hk' Hh) as [Hh1 Hh2]. rewrite Hh.
    assert (Hh3 : h < SEQ) by (apply Hk'; done).
    assert (HF : forall k, is_Some (delete tx (r_unacked s) !! k) -> seq_sub k h <= seq_sub (r_last s) h /\ seq_sub (r_last s) h <= seq_sub (r_last s) tx).
    { intros k Hkk. apply seq_sub_shift; auto. apply Hf. destruct Hkk as [? [_ ?]%lookup_delete_Some]. eauto. }
    eexists. split; [reflexivity|]. split; [destruct s; reflexivity|]. split; [reflexivity|].
    split; [split; [done|]; split; [done|]; cbn; split; [done|]; intros k Hkk; apply HF; done|].
    unfold span. cbn. rewrite Ef. destruct (HF h Hh1). lia.
  - eexists. split; [reflexivity|]. split; [destruct s; reflexivity|]. split; [reflexivity|].
    split; [split; [done|]; split; [done|]; cbn; rewrite Ef; split|].
    + rewrite lookup_delete_ne by done. eauto.
    + intros k [? [_ ?]%lookup_delete_Some]. eauto.
    + unfold span. cbn. rewrite Ef. lia.
Qed.
Lemma delete_each_ok l s :
  winr s -> NoDup l -> (forall x, x ∈ l -> is_Some (r_unacked s !! x)) ->
  exists s', delete_each l s = Some s' /\ frame s s' /\ winr s' /\ span s' <= span s /\
    forall k, r_unacked s' !! k = if decide (k ∈ l) then None else r_unacked s !! k.
Proof.
  revert s. induction l as [|x l IH]; intros s Hw Hn Hl.
  - exists s. split; [done|]. split; [apply frame_refl|]. split; [done|]. split; [lia|]. intros k. rewrite decide_False by apply not_elem_of_nil. done.
  - apply NoDup_cons in Hn as [Hx Hn]. cbn [delete_each].
    destruct (delete_ok x s Hw) as (s1 & E & F1 & U1 & W1 & S1); [apply Hl; left|]. rewrite E.
    destruct (IH s1) as (s' & E' & F' & W' & S' & U'); [done|done| |].
    { intros y Hy. rewrite U1, lookup_delete_ne by (intros ->; done). apply Hl. by right. }
    exists s'. split; [done|]. split; [eapply frame_trans; eauto|]. split; [done|]. split; [lia|].
    intros k. rewrite U'. destruct (decide (k ∈ l)) as [Hk|Hk].
    + rewrite decide_True by (by right). done.
    + destruct (decide (k ∈ x :: l)) as [[->|?]%elem_of_cons|Hk']; [rewrite U1; apply lookup_delete|done|].
      rewrite U1, lookup_delete_ne; [done|]. intros ->. apply Hk'. left.
Qed.

(** * assigning *)
Lemma assign_ok s :
  winr s ->
  (assign_tx s = None /\ span s = SEQ) \/
  (exists tx, assign_tx s = Some (set_last tx s, tx) /\ tx < SEQ /\ r_unacked s !! tx = None /\
     forall u f, (r_unacked s = ∅ -> f = Some tx) -> (r_unacked s <> ∅ -> f = r_first s) ->
       win (<[tx := u]> (r_unacked s)) f tx /\
       match f with Some f => seq_sub tx f + 1 | None => 0 end <= span s + 1).
Proof.
  intros (Hl & Hk & Hf). unfold assign_tx. pose proof (seq_next_lt (r_last s)) as Hn.
  destruct (decide _) as [E|E].
  - right. eexists. split; [reflexivity|]. split; [done|]. rewrite E. split; [apply lookup_empty|].
    intros u f Hf1 _. rewrite Hf1 by done. split; [|rewrite seq_sub_refl by done; lia].
    split; [done|]. split; [|split].
    + intros k [? [[<- _]|[_ ?]]%lookup_insert_Some]; [done|]. rewrite lookup_empty in *. done.
    + rewrite lookup_insert. eauto.
    + intros k [? [[<- _]|[_ ?]]%lookup_insert_Some]; [lia|]. rewrite lookup_empty in *. done.
  - destruct (r_first s) as [f|] eqn:Ef; [|done]. destruct Hf as [Hf1 Hf2]. assert (Hf3 : f < SEQ) by auto.
    destruct (N.eqb_spec (seq_next (r_last s)) f) as [Hq|Hq].
    + left. split; [done|]. unfold span. rewrite Ef. by apply seq_sub_full.
    + right. eexists. split; [reflexivity|]. split; [done|].
      pose proof (seq_sub_next _ _ Hl Hf3 Hq) as Hs.
      assert (HN : r_unacked s !! seq_next (r_last s) = None).
      { destruct (_ !! seq_next _) eqn:Ek; [|done]. assert (H : is_Some (r_unacked s !! seq_next (r_last s))) by (rewrite Ek; eauto). apply Hf2 in H. lia. }
      split; [done|]. intros u f' _ Hf'. rewrite Hf' by done. split; [|unfold span; rewrite Ef; lia].
      split; [done|]. split; [|split].
      * intros k [? [[<- _]|[_ ?]]%lookup_insert_Some]; [done|]. eauto.
      * rewrite lookup_insert_ne by done. eauto.
      * intros k [? [[<- _]|[_ ?]]%lookup_insert_Some]; [lia|]. rewrite Hs. etransitivity; [apply Hf2; eauto|lia].
Qed.
