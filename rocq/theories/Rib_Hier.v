(** Insertion and removal keep the tree of entries. *)
From stdpp Require Import gmap.
From Verif Require Import Lib Name_Model Name_Proof Tab_Model Rib_Model Rib_Spec Rib_Tree.

Lemma lookup_upd_at n f m x : upd_at n f m !! x = (if decide (x = n) then f <$> m !! x else m !! x).
Proof.
  unfold upd_at. destruct (m !! n) as [e|] eqn:E.
  - case_decide as Hx; [subst; by rewrite lookup_insert, E|by rewrite lookup_insert_ne].
  - case_decide as Hx; [subst; by rewrite E|done].
Qed.
Lemma opt_name_eqb_eq a b : opt_name_eqb a b = true <-> a = b.
Proof. destruct a, b; simpl; rewrite ?name_eqb_eq; naive_solver. Qed.
Lemma each_of_app {A S} (f : A -> S -> option S) l k s :
  each_of f (l ++ k) s = match each_of f l s with Some s' => each_of f k s' | None => None end.
Proof. revert s. induction l as [|x l IH]; intros s; simpl; [done|]. destruct (f x s); [apply IH|done]. Qed.

(** ** Moving children *)
Definition drop_names (l k : list name) : list name := List.filter (fun x => negb (bool_decide (x ∈ l))) k.
Definition has_parent (m : rmap) (p : option name) (c : name) : bool :=
  match m !! c with Some e => opt_name_eqb (re_parent e) p | None => false end.
Lemma has_parent_ext m m' p l : (forall c, c ∈ l -> re_parent <$> m !! c = re_parent <$> m' !! c) -> List.filter (has_parent m p) l = List.filter (has_parent m' p) l.
Proof.
  intros H. apply List.filter_ext_in. intros c Hc%elem_of_list_In. specialize (H c Hc). unfold has_parent.
  destruct (m !! c), (m' !! c); simpl in *; try done. injection H as ->. done.
Qed.
Lemma filter_filter {A} (p q : A -> bool) l : List.filter p (List.filter q l) = List.filter (fun x => q x && p x) l.
Proof. induction l as [|x l IH]; simpl; [done|]. destruct (q x) eqn:E; simpl; [|done]. by rewrite IH. Qed.
Lemma drop_names_cons c l k : drop_names l (List.filter (fun x => negb (name_eqb x c)) k) = drop_names (c :: l) k.
Proof.
  unfold drop_names. rewrite filter_filter. apply List.filter_ext. intros x.
  destruct (name_eqb x c) eqn:E; simpl.
  - apply name_eqb_eq in E as ->. rewrite bool_decide_true by set_solver. done.
  - apply name_eqb_neq in E. f_equal. apply bool_decide_ext. set_solver.
Qed.
Lemma drop_names_nil k : drop_names [] k = k.
Proof.
  unfold drop_names. induction k as [|x k IH]; [done|]. cbn [List.filter].
  rewrite bool_decide_false by (by apply not_elem_of_nil). cbn [negb]. by rewrite IH.
Qed.
Lemma set_children_children l k e : set_re_children l (set_re_children k e) = set_re_children l e.
Proof. done. Qed.

(** the effect of the loop of insert *)
Definition adopted (n : name) (parent : option name) (mv : list name) (x : name) (e : rib_entry) : rib_entry :=
  if decide (x = n) then set_re_children (re_children e ++ mv) e
  else if decide (Some x = parent) then set_re_children (drop_names mv (re_children e)) e
  else if decide (x ∈ mv) then set_re_parent (Some n) e else e.
Lemma re_eta e : RibEntry (re_id e) (re_routes e) (re_ncap e) (re_inherited e) (re_parent e) (re_children e) = e.
Proof. by destruct e. Qed.
Lemma adopt_all n parent l m :
  parent <> Some n -> n ∉ l -> (forall p, parent = Some p -> p ∉ l) -> NoDup l -> (forall c, c ∈ l -> is_Some (m !! c)) ->
  exists m', each_of (adopt n parent) l m = Some m' /\
    forall x, m' !! x = adopted n parent (List.filter (has_parent m parent) l) x <$> m !! x.
Proof.
  revert m. induction l as [|c l IH]; intros m Hpn Hnl Hpl Hnd Hd.
  { exists m. split; [done|]. intros x. destruct (m !! x) as [e|]; [|done]. simpl. f_equal. unfold adopted.
    rewrite app_nil_r, drop_names_nil. unfold set_re_children. destruct e. simpl. by repeat case_decide. }
  apply not_elem_of_cons in Hnl as [Hnc Hnl]. apply NoDup_cons in Hnd as [Hcl Hnd].
  assert (Hcp : parent <> Some c). { intros ->. by eapply (Hpl c), elem_of_list_here. }
  assert (Hpl' : forall p, parent = Some p -> p ∉ l). { intros p ->. specialize (Hpl p eq_refl). set_solver. }
  destruct (Hd c ltac:(left)) as [ce Hc]. assert (Hd' : forall c, c ∈ l -> is_Some (m !! c)) by (intros; apply Hd; by right).
  simpl. unfold adopt at 1. rewrite Hc. unfold has_parent at 1. rewrite Hc.
  destruct (opt_name_eqb (re_parent ce) parent) eqn:Eo.
  2:{ apply IH; done. }
  apply opt_name_eqb_eq in Eo.
  set (m1 := upd_at n (fun e => set_re_children (re_children e ++ [c]) e) (upd_at c (set_re_parent (Some n))
       (match parent with Some p => upd_at p (fun e => set_re_children (List.filter (fun x => negb (name_eqb x c)) (re_children e)) e) (upd_at c (set_re_parent None) m) | None => m end))).
  assert (E1 : match match parent with Some p => remove_child p c m | None => Some m end with Some m' => add_child n c m' | None => None end = Some m1).
  { unfold m1. destruct parent as [p|].
    - unfold remove_child. rewrite Hc, Eo, name_eqb_refl. unfold add_child.
      rewrite !lookup_upd_at. rewrite !(decide_False (P := c = p)) by congruence. rewrite decide_True, Hc by done. done.
    - unfold add_child. rewrite Hc, Eo. done. }
  rewrite E1. assert (Hm1 : forall x, m1 !! x = (fun e =>
      if decide (x = n) then set_re_children (re_children e ++ [c]) e
      else if decide (Some x = parent) then set_re_children (List.filter (fun x => negb (name_eqb x c)) (re_children e)) e
      else if decide (x = c) then set_re_parent (Some n) e else e) <$> m !! x).
  { intros x. unfold m1. rewrite !lookup_upd_at. destruct parent as [p|]; rewrite ?lookup_upd_at.
    - destruct (decide (x = n)) as [->|Hxn].
      + rewrite !(decide_False (P := n = c)) by done. rewrite (decide_False (P := n = p)) by congruence. done.
      + destruct (decide (x = c)) as [->|Hxc].
        * rewrite Hc. rewrite (decide_False (P := c = p)) by congruence. simpl. rewrite (decide_False (P := Some c = Some p)) by congruence.
          done.
        * destruct (decide (x = p)) as [->|Hxp].
          -- destruct (m !! p); simpl; [|done]. by rewrite (decide_True (P := Some p = Some p)).
          -- destruct (m !! x); simpl; [|done]. by rewrite (decide_False (P := Some x = Some p)) by congruence.
    - destruct (decide (x = n)) as [->|Hxn]; [by rewrite !(decide_False (P := n = c))|].
      destruct (decide (x = c)) as [->|Hxc]; [by rewrite Hc|]. by destruct (m !! x). }
  assert (Hpar : forall c', c' ∈ l -> re_parent <$> m1 !! c' = re_parent <$> m !! c').
  { intros c' Hc'. rewrite Hm1. destruct (m !! c') as [e'|]; [|done]. simpl. f_equal.
    assert (c' <> c) by (intros ->; done). repeat case_decide; try done. }
  destruct (IH m1) as (m' & E2 & Hm'); [done..|intros c' Hc'; rewrite Hm1; destruct (Hd' c' Hc') as [? ->]; by eexists|].
  exists m'. split; [done|]. intros x. rewrite Hm', Hm1. rewrite (has_parent_ext m1 m parent l Hpar).
  destruct (m !! x) as [e|]; [|done]. simpl. f_equal. set (mv := List.filter (has_parent m parent) l).
  assert (Hmv : c ∉ mv). { intros H%elem_of_list_In. apply filter_In in H as [H _]. by apply elem_of_list_In in H. }
  unfold adopted. repeat case_decide; try done.
  - rewrite set_children_children. f_equal. simpl. by rewrite <-app_assoc.
  - rewrite set_children_children. f_equal. simpl. apply drop_names_cons.
  - exfalso. subst. done.
  - exfalso. set_solver.
  - exfalso. set_solver.
  - exfalso. set_solver.
Qed.

(** the effect of the loop of eraseEntry *)
Definition handed (n : name) (parent : option name) (mv : list name) (x : name) (e : rib_entry) : rib_entry :=
  if decide (x = n) then set_re_children (drop_names mv (re_children e)) e
  else if decide (Some x = parent) then set_re_children (re_children e ++ mv) e
  else if decide (x ∈ mv) then set_re_parent parent e else e.
Lemma hand_over_all n parent l m :
  parent <> Some n -> n ∉ l -> (forall p, parent = Some p -> p ∉ l) -> NoDup l ->
  (forall c, c ∈ l -> exists e, m !! c = Some e /\ re_parent e = Some n) ->
  exists m', each_of (hand_over n parent) l m = Some m' /\ forall x, m' !! x = handed n parent l x <$> m !! x.
Proof.
  revert m. induction l as [|c l IH]; intros m Hpn Hnl Hpl Hnd Hd.
  { exists m. split; [done|]. intros x. destruct (m !! x) as [e|]; [|done]. simpl. f_equal. unfold handed.
    rewrite app_nil_r, drop_names_nil. unfold set_re_children. destruct e. simpl. by repeat case_decide. }
  apply not_elem_of_cons in Hnl as [Hnc Hnl]. apply NoDup_cons in Hnd as [Hcl Hnd].
  assert (Hcp : parent <> Some c). { intros ->. by eapply (Hpl c), elem_of_list_here. }
  assert (Hpl' : forall p, parent = Some p -> p ∉ l). { intros p ->. specialize (Hpl p eq_refl). set_solver. }
  destruct (Hd c ltac:(left)) as (ce & Hc & Hcn). simpl. unfold hand_over at 1. unfold remove_child. rewrite Hc, Hcn, name_eqb_refl.
  set (m0 := upd_at n (fun e => set_re_children (List.filter (fun x => negb (name_eqb x c)) (re_children e)) e) (upd_at c (set_re_parent None) m)).
  set (m1 := match parent with Some p => upd_at p (fun e => set_re_children (re_children e ++ [c]) e) (upd_at c (set_re_parent (Some p)) m0) | None => m0 end).
  assert (E1 : match parent with Some p => add_child p c m0 | None => Some m0 end = Some m1).
  { unfold m1. destruct parent as [p|]; [|done]. unfold add_child. unfold m0 at 1. rewrite !lookup_upd_at.
    rewrite (decide_False (P := c = n)) by done. rewrite decide_True, Hc by done. done. }
  rewrite E1. assert (Hm1 : forall x, m1 !! x = (fun e =>
      if decide (x = n) then set_re_children (List.filter (fun x => negb (name_eqb x c)) (re_children e)) e
      else if decide (Some x = parent) then set_re_children (re_children e ++ [c]) e
      else if decide (x = c) then set_re_parent parent e else e) <$> m !! x).
  { intros x. unfold m1, m0. destruct parent as [p|]; rewrite ?lookup_upd_at.
    - destruct (decide (x = n)) as [->|Hxn].
      + rewrite !(decide_False (P := n = c)) by done. rewrite (decide_False (P := n = p)) by congruence. done.
      + destruct (decide (x = c)) as [->|Hxc].
        * rewrite Hc. rewrite (decide_False (P := c = p)) by congruence. simpl. rewrite (decide_False (P := Some c = Some p)) by congruence.
          done.
        * destruct (decide (x = p)) as [->|Hxp].
          -- destruct (m !! p); simpl; [|done]. by rewrite (decide_True (P := Some p = Some p)).
          -- destruct (m !! x); simpl; [|done]. by rewrite (decide_False (P := Some x = Some p)) by congruence.
    - destruct (decide (x = n)) as [->|Hxn]; [by rewrite !(decide_False (P := n = c))|].
      destruct (decide (x = c)) as [->|Hxc]; [by rewrite Hc|]. by destruct (m !! x). }
  destruct (IH m1) as (m' & E2 & Hm'); [done..| |].
  { intros c' Hc'. destruct (Hd c' ltac:(by right)) as (e' & He' & Hp'). rewrite Hm1, He'. eexists. split; [done|].
    assert (c' <> c) by (intros ->; done). repeat case_decide; try done; by subst. }
  exists m'. split; [done|]. intros x. rewrite Hm', Hm1.
  destruct (m !! x) as [e|]; [|done]. simpl. f_equal.
  unfold handed. repeat case_decide; try done.
  - rewrite set_children_children. f_equal. simpl. apply drop_names_cons.
  - rewrite set_children_children. f_equal. simpl. by rewrite <-app_assoc.
  - exfalso. subst. done.
  - exfalso. set_solver.
  - exfalso. set_solver.
  - exfalso. set_solver.
Qed.

(** * The invariant *)
Record hier (m : rmap) : Prop := {
  h_parent : forall n e, m !! n = Some e -> re_parent e = find_parent m n;
  h_children : forall n e c, m !! n = Some e -> c ∈ re_children e <-> is_Some (m !! c) /\ find_parent m c = Some n;
  h_nodup : forall n e, m !! n = Some e -> NoDup (re_children e);
}.
Lemma hier_empty : hier ∅.
Proof. split; intros n e; by rewrite lookup_empty. Qed.
(** what the invariant speaks of *)
Lemma hier_ext m m' :
  (forall x, (fun e => (re_parent e, re_children e)) <$> m !! x = (fun e => (re_parent e, re_children e)) <$> m' !! x) -> hier m -> hier m'.
Proof.
  intros Hx H. assert (Hd : forall x, is_Some (m !! x) <-> is_Some (m' !! x)).
  { intros x. specialize (Hx x). destruct (m !! x), (m' !! x); simpl in Hx; try done. }
  assert (Hf : forall x, find_parent m' x = find_parent m x) by (intros; symmetry; by apply find_parent_dom).
  split; intros n e'; [|intros c|]; intros He'; specialize (Hx n) as Hn; rewrite He' in Hn;
    (destruct (m !! n) as [e|] eqn:He; [|done]); simpl in Hn; injection Hn as E1 E2.
  - rewrite Hf, <-E1. by apply (h_parent m H).
  - rewrite Hf, <-E2, <-Hd. by apply (h_children m H).
  - rewrite <-E2. by apply (h_nodup m H n).
Qed.
Lemma elem_of_drop_names x l k : x ∈ drop_names l k <-> x ∈ k /\ x ∉ l.
Proof.
  unfold drop_names. etransitivity; [apply elem_of_list_In|]. etransitivity; [apply filter_In|].
  rewrite <-elem_of_list_In, negb_true_iff, bool_decide_eq_false. done.
Qed.
Lemma drop_names_nodup l k : NoDup k -> NoDup (drop_names l k).
Proof. intros H. apply NoDup_ListNoDup, List.NoDup_filter, NoDup_ListNoDup. done. Qed.

Definition strip (e : rib_entry) := (re_id e, re_routes e, re_ncap e, re_inherited e).

(** a new entry *)
Lemma insert_hier n e m :
  hier m -> m !! n = None -> re_parent e = None -> re_children e = [] ->
  let m1 := <[n := e]> m in let parent := find_parent m1 n in
  exists m2 m3, (match parent with Some p => add_child p n m1 | None => Some m1 end) = Some m2 /\
    each_of (adopt n parent) (find_descendants m2 n) m2 = Some m3 /\ hier m3 /\
    forall x, strip <$> m3 !! x = strip <$> m1 !! x.
Proof.
  intros H Hn Hep Hec m1 parent.
  assert (Ep : parent = find_parent m n).
  { unfold parent, m1. rewrite find_parent_insert by done. by case_bool_decide as Hd; [destruct Hd as [Hd _]; apply proper_irrefl in Hd|]. }
  assert (Hpp : forall p, parent = Some p -> p <> n /\ is_Some (m !! p) /\ proper_prefix p n).
  { intros p E. rewrite Ep in E. apply find_parent_some in E as (H1 & H2 & _). split; [|done]. intros ->. by eapply proper_irrefl. }
  set (m2 := match parent with Some p => upd_at p (fun e => set_re_children (re_children e ++ [n]) e) (upd_at n (set_re_parent (Some p)) m1) | None => m1 end).
  exists m2. assert (E2 : (match parent with Some p => add_child p n m1 | None => Some m1 end) = Some m2).
  { unfold m2. destruct parent as [p|]; [|done]. unfold add_child, m1. rewrite lookup_insert, Hep. done. }
  assert (Hm2 : forall x, m2 !! x = if decide (x = n) then Some (set_re_parent parent e)
            else (fun e => if decide (Some x = parent) then set_re_children (re_children e ++ [n]) e else e) <$> m !! x).
  { intros x. unfold m2, m1. destruct parent as [p|]; rewrite ?lookup_upd_at.
    - specialize (Hpp p eq_refl). destruct (decide (x = n)) as [->|Hxn].
      + rewrite (decide_False (P := n = p)) by naive_solver. by rewrite lookup_insert.
      + rewrite lookup_insert_ne by done. destruct (decide (x = p)) as [->|Hxp].
        * destruct (m !! p); simpl; [|done]. by rewrite (decide_True (P := Some p = Some p)).
        * destruct (m !! x); simpl; [|done]. by rewrite (decide_False (P := Some x = Some p)) by congruence.
    - destruct (decide (x = n)) as [->|Hxn].
      + rewrite lookup_insert. f_equal. destruct e; simpl in *; by subst.
      + rewrite lookup_insert_ne by done. by destruct (m !! x). }
  assert (Hd2 : forall x, is_Some (m2 !! x) <-> x = n \/ is_Some (m !! x)).
  { intros x. rewrite Hm2. case_decide; [naive_solver|]. rewrite fmap_is_Some. naive_solver. }
  assert (Hn2 : is_Some (m2 !! n)) by (apply Hd2; by left).
  destruct (adopt_all n parent (find_descendants m2 n) m2) as (m3 & E3 & Hm3).
  { intros E. by apply Hpp in E as [? _]. }
  { intros Hi%find_descendants_spec; [|done]. destruct Hi as [_ Hi]. by apply (proper_irrefl n). }
  { intros p E Hi%find_descendants_spec; [|done]. apply Hpp in E as (_ & _ & K). eapply (proper_irrefl n), proper_trans; [apply Hi|done]. }
  { apply find_descendants_nodup. }
  { intros c Hi%find_descendants_spec; [|done]. by apply Hi. }
  exists m3. split; [done|]. split; [done|].
  set (mv := List.filter (has_parent m2 parent) (find_descendants m2 n)) in *.
  assert (Hmv : forall c, c ∈ mv <-> is_Some (m !! c) /\ proper_prefix n c /\ find_parent m c = find_parent m n).
  { intros c. unfold mv. etransitivity; [apply elem_of_list_In|]. etransitivity; [apply filter_In|].
    rewrite <-elem_of_list_In, find_descendants_spec, Hd2 by done. unfold has_parent. rewrite Hm2.
    destruct (decide (c = n)) as [->|Hcn].
    - rewrite Hn. split; [intros [[_ Hi] _]; by apply proper_irrefl in Hi|]. intros [[? ?] _]. done.
    - destruct (m !! c) as [ce|] eqn:Ec; simpl.
      + rewrite opt_name_eqb_eq. rewrite <-(h_parent m H c ce Ec). rewrite <-Ep.
        assert (re_parent (if decide (Some c = parent) then set_re_children (re_children ce ++ [n]) ce else ce) = re_parent ce) as -> by (by case_decide).
        naive_solver.
      + split; [|intros [[? ?] _]; done]. intros [_ ?]. done. }
  assert (Hf3 : forall x, find_parent m3 x = find_parent m1 x).
  { intros x. apply find_parent_dom. intros y. rewrite Hm3, fmap_is_Some, Hd2. unfold m1. rewrite lookup_insert_is_Some. 
    destruct (decide (y = n)); naive_solver. }
  assert (Hfp : forall x, find_parent m3 x = if decide (proper_prefix n x /\ find_parent m x = find_parent m n) then Some n else find_parent m x).
  { intros x. rewrite Hf3. unfold m1. rewrite find_parent_insert by done. case_bool_decide; case_decide; tauto. }
  assert (Hfn : find_parent m3 n = parent).
  { rewrite Hf3. done. }
  assert (Hm3' : forall x, m3 !! x = if decide (x = n) then Some (set_re_children mv (set_re_parent parent e))
       else (fun e => if decide (Some x = parent) then set_re_children (drop_names mv (re_children e ++ [n])) e
                      else if decide (x ∈ mv) then set_re_parent (Some n) e else e) <$> m !! x).
  { intros x. rewrite Hm3, Hm2. destruct (decide (x = n)) as [->|Hxn].
    - simpl. f_equal. unfold adopted. rewrite decide_True by done. f_equal. simpl. by rewrite Hec.
    - destruct (m !! x) as [ex|]; [|done]. simpl. f_equal. unfold adopted. rewrite (decide_False (P := x = n)) by done.
      case_decide; [|done]. rewrite set_children_children. done. }
  split; [split|].
  - intros x ex Hx. rewrite Hm3' in Hx. destruct (decide (x = n)) as [->|Hxn].
    + injection Hx as <-. simpl. done.
    + destruct (m !! x) as [ex0|] eqn:Ex; [|done]. simpl in Hx. injection Hx as <-.
      pose proof (h_parent m H x ex0 Ex) as Hp. rewrite Hfp. destruct (decide (Some x = parent)) as [Epar|Hxp].
      * simpl. rewrite decide_False; [done|]. intros [Hpx _]. symmetry in Epar. apply Hpp in Epar as (_ & _ & K).
        eapply (proper_irrefl n), proper_trans; done.
      * destruct (decide (x ∈ mv)) as [Hi|Hi].
        -- apply Hmv in Hi as (_ & Hi). by rewrite decide_True.
        -- rewrite decide_False; [done|]. intros K. apply Hi, Hmv. split; [by eexists|done].
  - intros x ex c Hx. rewrite Hm3' in Hx.
    assert (Hdc : is_Some (m3 !! c) <-> c = n \/ is_Some (m !! c)).
    { rewrite Hm3, fmap_is_Some. apply Hd2. }
    rewrite Hdc. destruct (decide (x = n)) as [->|Hxn].
    + injection Hx as <-. simpl. rewrite Hmv, Hfp. split.
      * intros (H1 & H2). rewrite decide_True by done. tauto.
      * intros [Hc Hf]. destruct (decide (proper_prefix n c /\ find_parent m c = find_parent m n)) as [K|K].
        -- destruct Hc as [->|Hc]; [by destruct K as [K _]; apply proper_irrefl in K|]. tauto.
        -- exfalso. apply find_parent_some in Hf as ([? ?] & _). by simplify_eq.
    + destruct (m !! x) as [ex0|] eqn:Ex; [|done]. simpl in Hx. injection Hx as <-.
      pose proof (h_children m H x ex0 c Ex) as Hc. rewrite Hfp. destruct (decide (Some x = parent)) as [Epar|Hxp].
      * simpl. rewrite elem_of_drop_names, elem_of_app, elem_of_list_singleton, Hc, Hmv. split.
        -- intros [[[H1 H2]| ->] H3].
           ++ split; [by right|]. rewrite decide_False; [done|]. intros K. apply H3. tauto.
           ++ split; [by left|]. rewrite decide_False; [|intros [K _]; by apply proper_irrefl in K]. by rewrite <-Ep.
        -- intros [Hd Hf]. destruct (decide (proper_prefix n c /\ find_parent m c = find_parent m n)) as [K|K]; [congruence|].
           split; [|tauto]. destruct Hd as [->|Hd]; [by right|]. left. done.
      * assert (re_children (if decide (x ∈ mv) then set_re_parent (Some n) ex0 else ex0) = re_children ex0) as -> by (by case_decide).
        rewrite Hc. split.
        -- intros [H1 H2]. split; [by right|]. rewrite decide_False; [done|]. intros [_ K]. rewrite H2, <-Ep in K. done.
        -- intros [Hd Hf]. destruct (decide (proper_prefix n c /\ find_parent m c = find_parent m n)) as [K|K]; [congruence|].
           split; [|done]. destruct Hd as [->|Hd]; [|done]. rewrite <-Ep in Hf. done.
  - intros x ex Hx. rewrite Hm3' in Hx. destruct (decide (x = n)) as [->|Hxn].
    + injection Hx as <-. simpl. apply NoDup_ListNoDup, List.NoDup_filter, NoDup_ListNoDup, find_descendants_nodup.
    + destruct (m !! x) as [ex0|] eqn:Ex; [|done]. simpl in Hx. injection Hx as <-. pose proof (h_nodup m H x ex0 Ex) as Hnd.
      destruct (decide (Some x = parent)) as [Epar|Hxp]; [|by case_decide]. simpl. apply drop_names_nodup.
      apply NoDup_app. split; [done|]. split; [|by apply NoDup_singleton]. intros c Hc ->%elem_of_list_singleton.
      apply (h_children m H x ex0 n Ex) in Hc as [[? ?] _]. by simplify_eq.
  - intros x. rewrite Hm3'. unfold m1. destruct (decide (x = n)) as [->|Hxn].
    + rewrite lookup_insert. done.
    + rewrite lookup_insert_ne by done. destruct (m !! x); [|done]. simpl. f_equal. by repeat case_decide.
Qed.

(** an entry is removed *)
Lemma erase_hier n m :
  hier m -> is_Some (m !! n) ->
  exists m', erase_entry n m = Some m' /\ hier m' /\ forall x, strip <$> m' !! x = strip <$> delete n m !! x.
Proof.
  intros H [e He]. unfold erase_entry. rewrite He.
  pose proof (h_parent m H n e He) as Hp. pose proof (fun c => h_children m H n e c He) as Hc. pose proof (h_nodup m H n e He) as Hnd.
  set (parent := re_parent e) in *.
  assert (Hpp : forall p, parent = Some p -> p <> n /\ is_Some (m !! p) /\ proper_prefix p n).
  { intros p E. rewrite Hp in E. apply find_parent_some in E as (H1 & H2 & _). split; [|done]. intros ->. by eapply proper_irrefl. }
  set (m1 := match parent with Some p => upd_at p (fun e => set_re_children (List.filter (fun x => negb (name_eqb x n)) (re_children e)) e) (upd_at n (set_re_parent None) m) | None => m end).
  assert (E1 : match parent with Some p => remove_child p n m | None => Some m end = Some m1).
  { unfold m1. destruct parent as [p|] eqn:Ep; [|done]. unfold remove_child. rewrite He. fold parent. rewrite Ep, name_eqb_refl. done. }
  rewrite E1. assert (Hm1 : forall x, x <> n -> m1 !! x = (fun e => if decide (Some x = parent) then set_re_children (drop_names [n] (re_children e)) e else e) <$> m !! x).
  { intros x Hx. unfold m1. destruct parent as [p|].
    - rewrite !lookup_upd_at. rewrite (decide_False (P := x = n)) by done.
      destruct (decide (x = p)) as [->|Hxp].
      + destruct (m !! p); simpl; [|done]. rewrite (decide_True (P := Some p = Some p)) by done. f_equal. f_equal.
        rewrite <-drop_names_cons, drop_names_nil. done.
      + destruct (m !! x); simpl; [|done]. by rewrite (decide_False (P := Some x = Some p)) by congruence.
    - by destruct (m !! x). }
  assert (Hcc : forall c, c ∈ re_children e -> c <> n /\ (forall p, parent = Some p -> c <> p)).
  { intros c (_ & Hcn%find_parent_proper)%Hc. split; [intros ->; by eapply proper_irrefl|]. intros p E ->.
    apply Hpp in E as (_ & _ & K). eapply (proper_irrefl n), proper_trans; done. }
  destruct (hand_over_all n parent (re_children e) m1) as (m2 & E2 & Hm2).
  { intros E. by apply Hpp in E as [? _]. }
  { intros Hi. by apply Hcc in Hi as [? _]. }
  { intros p E Hi. by eapply (proj2 (Hcc _ Hi)). }
  { done. }
  { intros c Hi. destruct (Hcc c Hi) as [Hcn Hcp]. apply Hc in Hi as [[ce Ec] Hf]. rewrite Hm1, Ec by done. simpl.
    rewrite decide_False by (intros E; by eapply (Hcp c)). eexists. split; [done|]. by rewrite (h_parent m H c ce Ec). }
  rewrite E2. eexists. split; [done|].
  assert (Hm' : forall x, delete n m2 !! x = if decide (x = n) then None else (fun e0 =>
     if decide (Some x = parent) then set_re_children (drop_names [n] (re_children e0) ++ re_children e) e0
     else if decide (x ∈ re_children e) then set_re_parent parent e0 else e0) <$> m !! x).
  { intros x. destruct (decide (x = n)) as [->|Hx]; [apply lookup_delete|]. rewrite lookup_delete_ne, Hm2, Hm1 by done.
    destruct (m !! x); [|done]. simpl. f_equal. unfold handed. rewrite (decide_False (P := x = n)) by done. by repeat case_decide. }
  assert (Hd : forall x, is_Some (delete n m2 !! x) <-> x <> n /\ is_Some (m !! x)).
  { intros x. rewrite Hm'. case_decide; [split; [intros [? ?]; done|naive_solver]|]. rewrite fmap_is_Some. naive_solver. }
  assert (Hf : forall x, find_parent (delete n m2) x = if decide (find_parent m x = Some n) then parent else find_parent m x).
  { intros x. transitivity (find_parent (delete n m) x).
    - apply find_parent_dom. intros y. rewrite Hd, lookup_delete_is_Some. naive_solver.
    - rewrite find_parent_delete by (by eexists). rewrite Hp. case_bool_decide; case_decide; done. }
  split; [split|].
  - intros x ex Hx. rewrite Hm' in Hx. destruct (decide (x = n)) as [|Hxn]; [done|]. destruct (m !! x) as [ex0|] eqn:Ex; [|done].
    simpl in Hx. injection Hx as <-. pose proof (h_parent m H x ex0 Ex) as Hpx. rewrite Hf, <-Hpx.
    destruct (decide (Some x = parent)) as [Epar|Hxp].
    + simpl. rewrite decide_False; [done|]. rewrite Hpx. intros K%find_parent_proper. symmetry in Epar. apply Hpp in Epar as (_ & _ & L).
      eapply (proper_irrefl n), proper_trans; done.
    + destruct (decide (x ∈ re_children e)) as [Hi|Hi].
      * apply Hc in Hi as [_ Hi]. rewrite Hpx. by rewrite decide_True.
      * rewrite decide_False; [done|]. rewrite Hpx. intros K. apply Hi, Hc. split; [by eexists|done].
  - intros x ex c Hx. rewrite Hm' in Hx. destruct (decide (x = n)) as [|Hxn]; [done|]. destruct (m !! x) as [ex0|] eqn:Ex; [|done].
    simpl in Hx. injection Hx as <-. pose proof (h_children m H x ex0 c Ex) as Hcx. rewrite Hd, Hf.
    destruct (decide (Some x = parent)) as [Epar|Hxp].
    + simpl. rewrite elem_of_app, elem_of_drop_names, elem_of_list_singleton, Hcx, Hc. split.
      * intros [[[H1 H2] H3]|[H1 H2]].
        -- split; [done|]. rewrite decide_False; [done|]. rewrite H2. intros [= ->]. done.
        -- rewrite decide_True by done. split; [|done]. split; [|done]. intros ->. apply find_parent_proper in H2. by apply proper_irrefl in H2.
      * intros [[H1 H2] H3]. destruct (decide (find_parent m c = Some n)) as [K|K]; [by right|]. left. done.
    + assert (re_children (if decide (x ∈ re_children e) then set_re_parent parent ex0 else ex0) = re_children ex0) as -> by (by case_decide).
      rewrite Hcx. split.
      * intros [H1 H2]. rewrite H2, decide_False by congruence. split; [|done]. split; [|done]. intros ->. rewrite <-Hp in H2. done.
      * intros [[H1 H2] H3]. destruct (decide (find_parent m c = Some n)) as [K|K]; [congruence|]. done.
  - intros x ex Hx. rewrite Hm' in Hx. destruct (decide (x = n)) as [|Hxn]; [done|]. destruct (m !! x) as [ex0|] eqn:Ex; [|done].
    simpl in Hx. injection Hx as <-. pose proof (h_nodup m H x ex0 Ex) as Hndx. destruct (decide (Some x = parent)) as [Epar|Hxp]; [|by case_decide].
    simpl. apply NoDup_app. split; [by apply drop_names_nodup|]. split; [|done]. intros c Hc1%elem_of_drop_names Hc2.
    destruct Hc1 as [(_ & K1)%(h_children m H x ex0 c Ex) _]. apply Hc in Hc2 as [_ K2]. rewrite K1 in K2. congruence.
  - intros x. rewrite Hm'. destruct (decide (x = n)) as [->|Hxn]; [by rewrite lookup_delete|].
    rewrite lookup_delete_ne by done. destruct (m !! x); [|done]. simpl. f_equal. by repeat case_decide.
Qed.
