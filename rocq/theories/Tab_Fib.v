From stdpp Require Import gmap.
From Verif Require Import Lib Name_Model Name_Proof Packet_Model Nt_Model Nt_Spec Nt_Tree Tree_Model Tree_Proof Tab_Model Tab_Spec Tab_At.

(** * Nexthop lists *)
Lemma find_nexthop_Some f l i : find_nexthop f l = Some i ->
  exists h, l !! i = Some h /\ nh_face h = f /\ i < length l /\ (forall j h', j < i -> l !! j = Some h' -> nh_face h' <> f).
Proof.
  revert i. induction l as [|h l IH]; intros i; simpl; [done|].
  destruct (N.eqb_spec (nh_face h) f) as [E|E].
  - intros [= <-]. exists h. split; [done|]. split; [done|]. split; [lia|]. intros; lia.
  - destruct (find_nexthop f l) as [j|]; [|done]. intros [= <-].
    destruct (IH j eq_refl) as (h' & H1 & H2 & H3 & H4). exists h'. split; [done|]. split; [done|].
    split; [lia|]. intros [|j'] h'' Hj; simpl; [by intros [= <-]|]. apply H4. lia.
Qed.
Lemma find_nexthop_None f l : find_nexthop f l = None <-> f ∉ nh_face <$> l.
Proof.
  induction l as [|h l IH]; simpl; [split; [intros _; apply not_elem_of_nil|done]|].
  rewrite elem_of_cons. destruct (N.eqb_spec (nh_face h) f) as [E|E].
  - split; [done|]. intros H. exfalso. apply H. by left.
  - destruct (find_nexthop f l); simpl.
    + split; [done|]. intros H. exfalso. assert (Hx : Some n = None) by (apply IH; tauto). done.
    + split; [|done]. intros _ [?|?]; [congruence|]. by apply IH.
Qed.

Lemma cost_of_cons f h l : cost_of f (h :: l) = if (nh_face h =? f)%N then Some (nh_cost h) else cost_of f l.
Proof. unfold cost_of. simpl. by destruct (nh_face h =? f)%N. Qed.
Lemma cost_of_Some f c l : NoDup (nh_face <$> l) -> cost_of f l = Some c <-> NextHop f c ∈ l.
Proof.
  induction l as [|h l IH]; intros Hn.
  - split; [done|]. by intros ?%elem_of_nil.
  - change (nh_face <$> h :: l) with (nh_face h :: (nh_face <$> l)) in Hn. apply NoDup_cons in Hn as [Hh Hn].
    rewrite cost_of_cons, elem_of_cons. destruct (N.eqb_spec (nh_face h) f) as [<-|E].
    + split.
      * intros [= <-]. left. by destruct h.
      * intros [<-|Hin]; [done|]. exfalso. apply Hh. apply elem_of_list_fmap. by exists (NextHop (nh_face h) c).
    + rewrite IH by done. split; [by right|]. intros [<-|?]; [done|done].
Qed.
Lemma cost_of_None f l : cost_of f l = None <-> f ∉ nh_face <$> l.
Proof.
  induction l as [|h l IH]; [split; [intros _; apply not_elem_of_nil|done]|].
  rewrite cost_of_cons. change (nh_face <$> h :: l) with (nh_face h :: (nh_face <$> l)).
  rewrite elem_of_cons. destruct (N.eqb_spec (nh_face h) f) as [E|E].
  - split; [done|]. intros H. exfalso. apply H. by left.
  - rewrite IH. split; [|tauto]. intros H [?|?]; [congruence|done].
Qed.
Lemma cost_of_perm f l l' : NoDup (nh_face <$> l) -> l' ≡ₚ l -> cost_of f l' = cost_of f l.
Proof.
  intros Hn Hp. assert (Hn' : NoDup (nh_face <$> l')) by by rewrite Hp.
  destruct (cost_of f l) as [c|] eqn:E.
  - apply cost_of_Some; [done|]. rewrite Hp. by apply cost_of_Some.
  - apply cost_of_None. rewrite Hp. by apply cost_of_None.
Qed.

Section fib.
  Variable sort : list nexthop -> list nexthop.
  Hypothesis Hsort : sort_ok sort.

  Lemma insert_faces (l : list nexthop) (i : nat) f c h : l !! i = Some h -> nh_face h = f -> nh_face <$> <[i := NextHop f c]> l = nh_face <$> l.
  Proof.
    intros H <-. rewrite list_fmap_insert. simpl. apply list_insert_id.
    by rewrite list_lookup_fmap, H.
  Qed.

  Lemma add_nexthop_ok f c l : nexthops_ok l ->
    let '(l', i, is_new) := add_or_update_nexthop sort f c l in
    nexthops_ok l' /\ is_new = negb (bool_decide (is_Some (cost_of f l))) /\
    (forall g, cost_of g l' = if decide (g = f) then Some c else cost_of g l) /\
    length l' = (if is_new then S (length l) else length l) /\ i < length l' /\
    (is_new = true -> i = length l).
  Proof.
    intros [Hs Hn]. unfold add_or_update_nexthop. destruct (find_nexthop f l) as [i|] eqn:E.
    - apply find_nexthop_Some in E as (h & Hi & Hf & Hl & Hbefore).
      destruct (Hsort (<[i := NextHop f c]> l)) as [Hp Hs'].
      assert (Hfaces : nh_face <$> <[i := NextHop f c]> l = nh_face <$> l) by by eapply insert_faces.
      assert (Hn1 : NoDup (nh_face <$> <[i := NextHop f c]> l)) by by rewrite Hfaces.
      assert (Hin : h ∈ l) by by eapply elem_of_list_lookup_2.
      split; [split; [done|by rewrite Hp]|]. split.
      { rewrite bool_decide_eq_true_2; [done|]. exists (nh_cost h). apply cost_of_Some; [done|]. subst f. by destruct h. }
      split; [|rewrite Hp, insert_length; split; [done|split; [lia|done]]].
      intros g. rewrite (cost_of_perm g _ _ Hn1 Hp). destruct (decide (g = f)) as [->|Hne].
      + apply cost_of_Some; [done|]. apply elem_of_list_lookup. exists i. by apply list_lookup_insert.
      + destruct (cost_of g l) as [c'|] eqn:Ec.
        * apply cost_of_Some; [done|]. apply cost_of_Some in Ec; [|done].
          apply elem_of_list_lookup in Ec as [j Hj]. apply elem_of_list_lookup. exists j.
          rewrite list_lookup_insert_ne; [done|]. intros ->. rewrite Hi in Hj. injection Hj as ->. simpl in Hf. congruence.
        * apply cost_of_None. rewrite Hfaces. by apply cost_of_None.
    - apply find_nexthop_None in E. destruct (Hsort (l ++ [NextHop f c])) as [Hp Hs'].
      assert (Hn1 : NoDup (nh_face <$> l ++ [NextHop f c])).
      { rewrite fmap_app. apply NoDup_app. split; [done|]. split; [|by apply NoDup_singleton].
        intros x Hx Hx'. apply elem_of_list_singleton in Hx' as ->. done. }
      split; [split; [done|by rewrite Hp]|]. split.
      { rewrite bool_decide_eq_false_2; [done|]. apply cost_of_None in E. rewrite E. by intros []. }
      split; [|rewrite Hp, app_length; simpl; split; [lia|split; [lia|done]]].
      intros g. rewrite (cost_of_perm g _ _ Hn1 Hp). destruct (decide (g = f)) as [->|Hne].
      + apply cost_of_Some; [done|]. apply elem_of_app. right. by left.
      + destruct (cost_of g l) as [c'|] eqn:Ec.
        * apply cost_of_Some; [done|]. apply cost_of_Some in Ec; [|done]. apply elem_of_app. by left.
        * apply cost_of_None. rewrite fmap_app, elem_of_app.
          intros [?|Hx]; [|apply elem_of_list_singleton in Hx; done]. by apply cost_of_None in Ec.
  Qed.

  Lemma delete_sorted {A} (R : A -> A -> Prop) (l : list A) i : StronglySorted R l -> StronglySorted R (take i l ++ drop (S i) l).
  Proof.
    intros H. revert i. induction H as [|x l H IH Hall]; intros [|i]; simpl; try (by constructor).
    - by rewrite drop_0.
    - constructor; [apply IH|]. apply Forall_app. split; [by apply Forall_take|by apply Forall_drop].
  Qed.
  Lemma remove_nexthop_ok f l : nexthops_ok l ->
    match remove_nexthop f l with
    | Some l' => is_Some (cost_of f l) /\ nexthops_ok l' /\
                 (forall g, cost_of g l' = if decide (g = f) then None else cost_of g l) /\
                 length l = S (length l')
    | None => cost_of f l = None
    end.
  Proof.
    intros [Hs Hn]. unfold remove_nexthop. destruct (find_nexthop f l) as [i|] eqn:E.
    - apply find_nexthop_Some in E as (h & Hi & Hf & Hl & Hbefore).
      assert (Hp : l ≡ₚ h :: (take i l ++ drop (S i) l)).
      { rewrite <- (take_drop_middle l i h Hi) at 1. by rewrite <- Permutation_middle. }
      assert (Hn1 : NoDup (nh_face <$> h :: (take i l ++ drop (S i) l))) by by rewrite <- Hp.
      change (nh_face <$> h :: ?x) with (nh_face h :: (nh_face <$> x)) in Hn1. 
      pose proof Hn1 as [Hh Hn2]%NoDup_cons.
      split; [|split; [split; [by apply delete_sorted|done]|split]].
      + exists (nh_cost h). apply cost_of_Some; [done|]. apply elem_of_list_lookup. exists i. rewrite Hi, <- Hf. by destruct h.
      + intros g. rewrite (cost_of_perm g (h :: (take i l ++ drop (S i) l)) l Hn1 Hp), cost_of_cons.
        destruct (decide (g = f)) as [->|Hne].
        * apply cost_of_None. by rewrite <- Hf.
        * destruct (N.eqb_spec (nh_face h) g); [congruence|done].
      + apply Permutation_length in Hp. done.
    - by apply cost_of_None, find_nexthop_None.
  Qed.

  Lemma cost_of_nil_iff l : l = [] <-> forall g, cost_of g l = None.
  Proof.
    split; [by intros ->|]. destruct l as [|h l]; [done|]. intros H. specialize (H (nh_face h)).
    rewrite cost_of_cons, N.eqb_refl in H. done.
  Qed.
End fib.

(** * The table *)
Definition fib_inv (g : name -> option fib_entry) (c : N) : Prop :=
  (forall n fe, g n = Some fe -> fe_prefix fe = n /\ nexthops_ok (fe_nexthops fe)) /\ counter_ok c g.
Definition fib_ok (T : tables) : Prop := fib_inv (fun n => fib_at T n) (fib_n T).

Lemma fib_inv_ext g g' c : (forall n, g' n = g n) -> fib_inv g c -> fib_inv g' c.
Proof.
  intros H [H1 H2]. split; [intros n fe; rewrite H; apply H1|].
  eapply counter_ext; [|exact H2]. intros x. by rewrite H.
Qed.

(** everything except the FIB entry at [n] stays *)
Definition only_fib_at (n : name) (v : option fib_entry) (T T' : tables) : Prop :=
  (forall k, att T' k = if decide (k = n) then set_fib v (att T n) else att T k) /\
  pit_n T' = pit_n T /\ sc_n T' = sc_n T /\ meas_n T' = meas_n T /\ now T' = now T.

Lemma nte_eta e : Nte (e_fib e) (e_pit e) (e_meas e) (e_sc e) = e.
Proof. by destruct e. Qed.

Lemma only_fib_frame n v T T' : only_fib_at n v T T' ->
  (forall m, fib_at T' m = if decide (m = n) then v else fib_at T m) /\
  same_pit T T' /\ same_meas T T' /\ same_sc T T' /\ now T' = now T.
Proof.
  intros (H & H1 & H2 & H3 & H4). unfold same_pit, same_meas, same_sc.
  split; [intros m; rewrite !fib_at_att, H; by destruct (decide (m = n))|].
  split; [split; [|done]; intros k; rewrite !pit_at_att, H; destruct (decide (_ = n)) as [->|]; done|].
  split; [split; [|done]; intros k; rewrite !meas_at_att, H; destruct (decide (_ = n)) as [->|]; done|].
  split; [|done]. split; [|done]. intros k; rewrite !sc_at_att, H; destruct (decide (_ = n)) as [->|]; done.
Qed.

Lemma fib_ok_set n v T T' fe : fib_ok T -> only_fib_at n (Some v) T T' ->
  fe_prefix v = n -> nexthops_ok (fe_nexthops v) -> fib_at T n = Some fe -> fib_n T' = fib_n T -> fib_ok T'.
Proof.
  intros [H1 H2] [Hf _]%only_fib_frame Hp Hn Hfe Hc. split.
  - intros m x. rewrite Hf. destruct (decide (m = n)) as [->|]; [|apply H1]. by intros [= <-].
  - rewrite Hc. eapply counter_ext; [|exact H2]. intros m. cbv beta. rewrite Hf.
    destruct (decide (m = n)) as [->|]; [|done]. rewrite Hfe. split; intros _; eauto.
Qed.

Lemma fib_insert_ok n T : tree_ok T -> fib_ok T -> length n <= 32 ->
  exists T', fib_insert n T = Some (T', match fib_at T n with None => true | Some _ => false end) /\
    tree_ok T' /\ fib_ok T' /\
    only_fib_at n (Some (default (FibEntry n []) (fib_at T n))) T T'.
Proof.
  intros Ht Hf L. unfold fib_insert.
  destruct (lookup_nte_ok n T Ht L) as (T1 & -> & Ht1 & (C1 & C2 & C3 & C4 & C5) & Ha & Hp & _).
  destruct Hp as [e He]. assert (Hp : present T1 n) by by exists e. rewrite He.
  assert (He' : att T n = e) by (rewrite <- Ha; unfold att; by rewrite He).
  rewrite fib_at_att, He'. destruct (e_fib e) as [fe|] eqn:Efe; simpl.
  - exists T1. split; [done|]. split; [done|].
    assert (Hof : only_fib_at n (Some fe) T T1).
    { split; [|done]. intros k. rewrite Ha. destruct (decide (k = n)) as [->|]; [|done].
      rewrite He', <- Efe. unfold set_fib. by rewrite nte_eta. }
    split; [|done]. destruct Hf as [H1 H2]. 
    eapply (fib_ok_set n fe T T1); [done|done|apply (H1 n)| apply (H1 n)| |done]; by rewrite fib_at_att, He'.
  - eexists. split; [done|].
    assert (Hof : only_fib_at n (Some (FibEntry n [])) T
                    (set_fib_n (inc64 (fib_n T1)) (upd n (set_fib (Some (FibEntry n []))) T1))).
    { split; [|done]. intros k. change (att (set_fib_n ?c ?X) k) with (att X k). rewrite upd_att by done.
      by rewrite !Ha. }
    split; [by eapply tree_ok_tr, upd_tree_ok|]. split; [|done]. pose proof (only_fib_frame _ _ _ _ Hof) as [Hv _].
    destruct Hf as [H1 H2]. split.
    + intros m x. rewrite Hv. destruct (decide (m = n)) as [->|]; [|apply H1]. intros [= <-]. split; [done|].
      split; constructor.
    + simpl fib_n. rewrite C1 in Hv |- *. apply (counter_add (fun m => fib_at T m) _ _ n); [|intros m; cbv beta; rewrite Hv|exact H2].
      * cbv beta. rewrite fib_at_att, He', Efe. by intros [].
      * destruct (decide (m = n)) as [->|]; [|tauto]. split; eauto.
Qed.

Lemma fib_erase_nte_ok n b T : tree_ok T -> fib_ok T -> is_Some (fib_at T n) ->
  tree_ok (fib_erase_nte n b T) /\ fib_ok (fib_erase_nte n b T) /\ only_fib_at n None T (fib_erase_nte n b T).
Proof.
  intros Ht [H1 H2] Hs. pose proof (fib_at_present _ _ Hs) as Hp. unfold fib_erase_nte.
  set (T1 := upd n (set_fib None) T). assert (Ht1 : tree_ok T1) by by apply upd_tree_ok.
  assert (Hx : exists T2, (if b then erase_nte n T1 else T1) = T2 /\ tree_ok T2 /\ same_counters T T2 /\ forall k, att T2 k = att T1 k).
  { destruct b; [|exists T1; split; [done|split; [done|split; [apply upd_counters|done]]]].
    destruct (erase_nte_ok n T1 Ht1) as (Ht2 & Hc & Ha); [by apply upd_present|].
    exists (erase_nte n T1). split; [done|]. split; [done|]. split; [|done].
    destruct Hc as (? & ? & ? & ? & ?). done. }
  destruct Hx as (T2 & -> & Ht2 & (C1 & C2 & C3 & C4 & C5) & Ha).
  assert (Hof : only_fib_at n None T (set_fib_n (dec64 (fib_n T2)) T2)).
  { split; [|done]. intros k. change (att (set_fib_n ?c ?X) k) with (att X k). rewrite Ha. unfold T1. by rewrite upd_att. }
  split; [by eapply tree_ok_tr, Ht2|]. split; [|done]. pose proof (only_fib_frame _ _ _ _ Hof) as [Hv _]. split.
  - intros m x. rewrite Hv. destruct (decide (m = n)) as [->|]; [done|]. apply H1.
  - simpl fib_n. rewrite C1 in Hv |- *. apply (counter_del (fun m => fib_at T m) _ _ n); [exact Hs|intros m; cbv beta; rewrite Hv|exact H2].
    destruct (decide (m = n)) as [->|]; [|tauto]. split; [by intros []|by intros []].
Qed.

Lemma fib_erase_ok n T : tree_ok T -> fib_ok T -> is_Some (fib_at T n) ->
  tree_ok (fib_erase n T) /\ fib_ok (fib_erase n T) /\ only_fib_at n None T (fib_erase n T).
Proof.
  intros Ht Hf Hs. pose proof (fib_at_present _ _ Hs) as [e He]. unfold fib_erase. rewrite He.
  by apply fib_erase_nte_ok.
Qed.

Lemma fib_add_ok sort n f c T : sort_ok sort -> tree_ok T -> fib_ok T -> forall fe, fib_at T n = Some fe ->
  exists T' sig l', fib_add_nexthop sort n f c T = Some (T', sig) /\
    tree_ok T' /\ fib_ok T' /\ only_fib_at n (Some (FibEntry n l')) T T' /\
    nexthops_ok l' /\ (forall g, cost_of g l' = if decide (g = f) then Some c else cost_of g (fe_nexthops fe)) /\
    sig = (if decide (cost_of f (fe_nexthops fe) = None) then (pair n) <$> l' !! length (fe_nexthops fe) else None) /\
    length l' = (if decide (cost_of f (fe_nexthops fe) = None) then S (length (fe_nexthops fe)) else length (fe_nexthops fe)).
Proof.
  intros Hsort Ht [H1 H2] fe Hfe. pose proof (H1 n fe Hfe) as [Hpre Hok].
  assert (Hp : present T n) by (apply fib_at_present; eauto). unfold fib_add_nexthop. destruct Hp as [e He].
  assert (Hp : present T n) by by exists e.
  rewrite He. assert (Ee : e_fib e = Some fe) by (unfold fib_find in Hfe; by rewrite He in Hfe). rewrite Ee, Hpre.
  pose proof (add_nexthop_ok sort Hsort f c (fe_nexthops fe) Hok) as Hadd.
  destruct (add_or_update_nexthop sort f c (fe_nexthops fe)) as [[l' i] new].
  destruct Hadd as (Hok' & Hnew & Hcost & Hlen & Hi & Hi').
  assert (Hof : only_fib_at n (Some (FibEntry n l')) T (upd n (set_fib (Some (FibEntry n l'))) T)).
  { split; [|done]. intros k. by rewrite upd_att. }
  assert (Hok2 : fib_ok (upd n (set_fib (Some (FibEntry n l'))) T)).
  { by eapply fib_ok_set. }
  destruct new.
  - specialize (Hi' eq_refl). subst i. destruct (lookup_lt_is_Some_2 _ _ Hi) as [h Hh]. rewrite Hh.
    symmetry in Hnew. apply negb_true_iff, bool_decide_eq_false in Hnew.
    assert (Hnone : cost_of f (fe_nexthops fe) = None) by (destruct (cost_of f (fe_nexthops fe)); [exfalso; eauto|done]).
    eexists _, _, l'. split; [done|]. split; [by apply upd_tree_ok|]. split; [done|]. split; [done|]. split; [done|].
    split; [done|]. destruct (decide (cost_of f (fe_nexthops fe) = None)); [|done]. by rewrite Hh.
  - symmetry in Hnew. apply negb_false_iff, bool_decide_eq_true in Hnew. destruct Hnew as [x Hx].
    eexists _, _, l'. split; [done|]. split; [by apply upd_tree_ok|]. split; [done|]. split; [done|]. split; [done|].
    split; [done|]. destruct (decide (cost_of f (fe_nexthops fe) = None)); [congruence|done].
Qed.

Lemma fib_remove_ok n f T : tree_ok T -> fib_ok T -> forall fe, fib_at T n = Some fe ->
  exists T' res, fib_remove_nexthop n f T = Some (T', res) /\ tree_ok T' /\ fib_ok T' /\
    match cost_of f (fe_nexthops fe) with
    | None => res = NO_SUCH_NEXTHOP /\ T' = T
    | Some _ =>
        exists l', nexthops_ok l' /\ (forall g, cost_of g l' = if decide (g = f) then None else cost_of g (fe_nexthops fe)) /\
          length (fe_nexthops fe) = S (length l') /\
          (l' <> [] -> res = NEXTHOP_REMOVED /\ only_fib_at n (Some (FibEntry n l')) T T') /\
          (l' = [] -> res = FIB_ENTRY_REMOVED /\ only_fib_at n None T T')
    end.
Proof.
  intros Ht Hf fe Hfe. pose proof Hf as [H1 H2]. pose proof (H1 n fe Hfe) as [Hpre Hok].
  assert (Hp : present T n) by (apply fib_at_present; eauto). unfold fib_remove_nexthop. destruct Hp as [e He].
  assert (Hp : present T n) by by exists e.
  rewrite He. assert (Ee : e_fib e = Some fe) by (unfold fib_find in Hfe; by rewrite He in Hfe). rewrite Ee, Hpre.
  pose proof (remove_nexthop_ok f (fe_nexthops fe) Hok) as Hrem.
  destruct (remove_nexthop f (fe_nexthops fe)) as [l'|].
  - destruct Hrem as ([c Hc] & Hok' & Hcost & Hlen). rewrite Hc.
    assert (Hof : only_fib_at n (Some (FibEntry n l')) T (upd n (set_fib (Some (FibEntry n l'))) T)).
    { split; [|done]. intros k. by rewrite upd_att. }
    assert (Hok2 : fib_ok (upd n (set_fib (Some (FibEntry n l'))) T)) by by eapply fib_ok_set.
    assert (Ht2 : tree_ok (upd n (set_fib (Some (FibEntry n l'))) T)) by by apply upd_tree_ok.
    destruct l' as [|h l'].
    + destruct (fib_erase_nte_ok n false (upd n (set_fib (Some (FibEntry n []))) T)) as (Ht3 & Hok3 & Hof3); [done|done| |].
      { destruct (only_fib_frame _ _ _ _ Hof) as [Hv _]. rewrite Hv, decide_True by done. eauto. }
      eexists _, _. split; [done|]. split; [done|]. split; [done|]. exists []. split; [done|]. split; [done|]. split; [done|].
      split; [done|]. intros _. split; [done|]. destruct Hof3 as (Ha & ? & ? & ? & ?). split; [|done].
      intros k. rewrite Ha, !upd_att by done. destruct (decide (k = n)); [by rewrite decide_True|done].
    + eexists _, _. split; [done|]. split; [done|]. split; [done|]. exists (h :: l'). split; [done|]. split; [done|]. split; [done|].
      split; [|done]. done.
  - rewrite Hrem. eexists _, _. split; [done|]. split; [done|]. split; [done|]. done.
Qed.

(** longest prefix match *)
Lemma is_longest_unique (ok : name -> Prop) p q (n : name) : (forall x, ok x -> x `prefix_of` n) -> is_longest ok (Some p) -> is_longest ok (Some q) -> p = q.
Proof.
  intros Hpre [Hp Hp'] [Hq Hq']. pose proof (Hp' _ Hq). pose proof (Hq' _ Hp).
  apply Hpre in Hp as [Hp _]%take_prefix_iff. apply Hpre in Hq as [Hq _]%take_prefix_iff.
  rewrite Hp, Hq. f_equal. lia.
Qed.

Lemma fib_lpm_ok n T : tree_ok T ->
  match fib_lpm n T with
  | fe => (exists p, longest_defined (fun m => fib_at T m) n p /\ fib_at T p = Some fe) \/
          ((forall p, p `prefix_of` n -> fib_at T p = None) /\ fe = FibEntry [] [])
  end.
Proof.
  intros [C D]. unfold fib_lpm. destruct (t_lpm_ok nte_empty has_tables n has_fib (tr T) D) as [H1 H2].
  destruct (t_lpm n has_fib (tr T)) as [[p e]|] eqn:E; simpl in *.
  - left. specialize (H2 p e eq_refl). destruct H1 as [(Hp & e' & He' & Hh) Hmax].
    rewrite H2 in He'. injection He' as <-. unfold has_fib in Hh. destruct (e_fib e) as [fe|] eqn:Ef; [|done].
    exists p. split; [split; [done|split]|]; simpl.
    + unfold fib_find. rewrite H2, Ef. eauto.
    + intros q Hq [fe' Hfe']. apply Hmax. split; [done|]. unfold fib_find in Hfe'.
      destruct (tr T !! q) as [e'|] eqn:Eq; [|done]. exists e'. split; [done|]. unfold has_fib. by rewrite Hfe'.
    + unfold fib_find. by rewrite H2, Ef.
  - right. split; [|done]. intros p Hp. destruct (fib_at T p) as [fe|] eqn:Ef; [|done]. exfalso.
    apply (H1 p). split; [done|]. unfold fib_find in Ef.
    destruct (tr T !! p) as [e'|] eqn:Eq; [|done]. exists e'. split; [done|]. unfold has_fib. by rewrite Ef.
Qed.
