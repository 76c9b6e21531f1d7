(** The routes of the RIB. *)
From stdpp Require Import gmap.
From Verif Require Import Lib Name_Model Name_Proof Tab_Model Rib_Model Rib_Spec Rib_Tree Rib_Hier.

Definition key (r : route) : N * N := (r_face r, r_origin r).
Lemma same_route_key a b : same_route a b = true <-> key a = key b.
Proof. unfold same_route, key. rewrite andb_true_iff, !N.eqb_eq. split; [intros [-> ->]; done|by intros [= -> ->]]. Qed.
Lemma find_some_in {A} (p : A -> bool) l x : List.find p l = Some x -> x ∈ l /\ p x = true.
Proof. intros H. apply find_some in H as [H ?]. split; [by apply elem_of_list_In|done]. Qed.
Lemma find_none_in {A} (p : A -> bool) l x : List.find p l = None -> x ∈ l -> p x = false.
Proof. intros H Hx%elem_of_list_In. by eapply find_none in H. Qed.

Lemma find_route_none r l : find_route r l = None <-> key r ∉ map key l.
Proof.
  unfold find_route. split.
  - intros H (x & Hk & Hx)%elem_of_list_fmap. eapply find_none_in in Hx; [|done].
    apply not_true_iff_false in Hx. apply Hx. by apply same_route_key.
  - intros H. destruct (List.find _ l) as [x|] eqn:E; [|done]. apply find_some_in in E as [Hx E]. apply same_route_key in E.
    destruct H. apply elem_of_list_fmap. by exists x.
Qed.
Lemma find_route_some r l x : find_route r l = Some x -> x ∈ l /\ key x = key r.
Proof. intros [H1 H2]%find_some_in. split; [done|]. by apply same_route_key. Qed.

(** ** The lists of routes *)
Lemma remove_first_split {A} (p : A -> bool) l x :
  List.find p l = Some x -> exists l1 l2, l = l1 ++ x :: l2 /\ remove_first p l = l1 ++ l2 /\ (forall y, replace_first p y l = l1 ++ y :: l2) /\
    p x = true /\ Forall (fun y => p y = false) l1.
Proof.
  induction l as [|y l IH]; simpl; [done|]. destruct (p y) eqn:E.
  - intros [= ->]. exists [], l. repeat split; [done|constructor].
  - intros H. destruct (IH H) as (l1 & l2 & -> & H1 & H2 & H3 & H4). exists (y :: l1), l2. rewrite H1. repeat split; try done; [|by constructor].
    intros z. by rewrite H2.
Qed.
Lemma find_app {A} (p : A -> bool) l k : List.find p (l ++ k) = match List.find p l with Some x => Some x | None => List.find p k end.
Proof. induction l as [|x l IH]; simpl; [done|]. by destruct (p x). Qed.
Lemma find_ext {A} (p q : A -> bool) l : (forall x, x ∈ l -> p x = q x) -> List.find p l = List.find q l.
Proof.
  induction l as [|x l IH]; intros H; simpl; [done|]. rewrite (H x) by left. destruct (q x); [done|]. apply IH. intros; apply H; by right.
Qed.

Definition by_key (f o : N) (x : route) : bool := (r_face x =? f)%N && (r_origin x =? o)%N.
Lemma by_key_eq f o x : by_key f o x = true <-> key x = (f, o).
Proof. unfold by_key, key. rewrite andb_true_iff, !N.eqb_eq. split; [intros [-> ->]; done|by intros [= -> ->]]. Qed.
Lemma by_key_neq f o x : by_key f o x = false <-> key x <> (f, o).
Proof. rewrite <-not_true_iff_false, by_key_eq. done. Qed.
Lemma same_route_by_key r x : same_route x r = by_key (r_face r) (r_origin r) x.
Proof. done. Qed.

(** ** Totals *)
Lemma all_routes_in R n r : (n, r) ∈ all_routes R <-> r ∈ routes_at R n.
Proof.
  unfold all_routes, routes_at. etransitivity; [apply elem_of_list_In|]. etransitivity; [apply in_concat|]. split.
  - intros (l & Hl & Hr). apply in_map_iff in Hl as ([n' e] & <- & Hi). simpl in Hr. apply in_map_iff in Hr as (r' & [= -> ->] & Hr).
    apply elem_of_list_In, elem_of_map_to_list in Hi. rewrite Hi. by apply elem_of_list_In.
  - destruct (rb_map R !! n) as [e|] eqn:E; [|by intros H%elem_of_nil]. intros Hr.
    exists (map (pair n) (re_routes e)). split.
    + apply in_map_iff. exists (n, e). split; [done|]. by apply elem_of_list_In, elem_of_map_to_list.
    + apply in_map_iff. exists r. split; [done|]. by apply elem_of_list_In.
Qed.
Definition count (m : rmap) : nat := sum_list (map (fun x => length (re_routes (snd x))) (map_to_list m)).
Lemma count_all R : length (all_routes R) = count (rb_map R).
Proof.
  unfold all_routes, count. induction (map_to_list (rb_map R)) as [|[n e] l IH]; simpl; [done|]. by rewrite app_length, map_length, IH.
Qed.
Lemma sum_list_perm l k : l ≡ₚ k -> sum_list l = sum_list k.
Proof. induction 1; simpl; lia. Qed.
Lemma count_insert m n e : m !! n = None -> count (<[n := e]> m) = (length (re_routes e) + count m)%nat.
Proof.
  intros H. unfold count. transitivity (sum_list (map (fun x : name * rib_entry => length (re_routes (snd x))) ((n, e) :: map_to_list m))); [|done].
  apply sum_list_perm, Permutation_map. by apply map_to_list_insert.
Qed.
Lemma count_delete m n e : m !! n = Some e -> count m = (length (re_routes e) + count (delete n m))%nat.
Proof. intros H. rewrite <-(insert_delete m n e H) at 1. apply count_insert. apply lookup_delete. Qed.
Lemma count_ext m m' : (forall x, length <$> (re_routes <$> m !! x) = length <$> (re_routes <$> m' !! x)) -> count m = count m'.
Proof.
  revert m'. induction m as [|n e m Hn IH] using map_ind; intros m' H.
  - assert (m' = ∅) as ->; [|done]. apply map_empty. intros x. specialize (H x). rewrite lookup_empty in H. by destruct (m' !! x).
  - pose proof (H n) as H0. rewrite lookup_insert in H0. destruct (m' !! n) as [e'|] eqn:E'; [|done]. simpl in H0. injection H0 as H0.
    rewrite count_insert by done. rewrite (count_delete m' n e') by done. rewrite H0. f_equal. apply IH. intros x. specialize (H x).
    destruct (decide (x = n)) as [->|Hx]; [by rewrite Hn, lookup_delete|]. rewrite lookup_insert_ne in H by done. by rewrite lookup_delete_ne.
Qed.

(** * What insert does *)
Lemma strip_routes (m m' : rmap) : (forall x, strip <$> m !! x = strip <$> m' !! x) -> forall x, re_routes <$> m !! x = re_routes <$> m' !! x.
Proof. intros H x. specialize (H x). destruct (m !! x), (m' !! x); simpl in *; try done. by injection H as _ -> _ _. Qed.

Definition put_route (r : route) (l : list route) : list route :=
  match find_route r l with None => l ++ [r] | Some _ => replace_first (fun x => same_route x r) r l end.
Definition drop_route (r : route) (l : list route) : list route := remove_first (fun x => same_route x r) l.

Definition new_ncap (r : route) (l : list route) (n : N) : N :=
  match find_route r l with None => if rib_capture r then inc64 n else n | Some _ => n end.

Lemma rib_insert_ok n r R :
  hier (rb_map R) ->
  exists R', rib_insert n r R = Some R' /\ hier (rb_map R') /\
    (forall x, x <> n -> strip <$> rb_map R' !! x = strip <$> rb_map R !! x) /\
    (exists e', rb_map R' !! n = Some e' /\ strip e' =
      (match rb_map R !! n with Some e => re_id e | None => rb_next R end, put_route r (routes_at R n),
       match rb_map R !! n with Some e => new_ncap r (re_routes e) (re_ncap e) | None => new_ncap r [] 0 end,
       match rb_map R !! n with Some e => re_inherited e | None => [] end) /\
     rb_faces R' = (match find_route r (routes_at R n) with None => rb_faces R ++ [(r_face r, re_id e')] | Some _ => rb_faces R end)) /\
    rb_n R' = (match find_route r (routes_at R n) with None => inc64 (rb_n R) | Some _ => rb_n R end) /\
    rb_next R' = (match rb_map R !! n with Some _ => rb_next R | None => (rb_next R + 1)%N end).
Proof.
  intros H. unfold rib_insert, routes_at. destruct (rb_map R !! n) as [e|] eqn:E.
  - unfold insert_route, put_route, new_ncap. destruct (find_route r (re_routes e)) as [old|] eqn:Ef.
    + eexists. split; [done|]. simpl. split.
      { eapply hier_ext; [|exact H]. intros x. destruct (decide (x = n)) as [->|Hx]; [by rewrite lookup_insert, E|by rewrite lookup_insert_ne]. }
      split; [intros x Hx; by rewrite lookup_insert_ne|]. split; [|done].
      eexists. rewrite lookup_insert. done.
    + eexists. split; [done|]. simpl. split.
      { eapply hier_ext; [|exact H]. intros x. destruct (decide (x = n)) as [->|Hx]; [|by rewrite lookup_insert_ne].
        rewrite lookup_insert, E. simpl. f_equal. by destruct (rib_capture r). }
      split; [intros x Hx; by rewrite lookup_insert_ne|]. split; [|done].
      eexists. rewrite lookup_insert. split; [done|]. unfold strip. simpl. by destruct (rib_capture r).
  - set (e := fst (insert_route r (RibEntry (rb_next R) [] 0 [] None []))).
    assert (He : e = RibEntry (rb_next R) [r] (if rib_capture r then inc64 0 else 0) [] None []).
    { unfold e, insert_route. simpl. by destruct (rib_capture r). }
    destruct (insert_hier n e (rb_map R) H E) as (m2 & m3 & E2 & E3 & H3 & Hs); [by rewrite He..|]. cbv zeta in *.
    rewrite E2, E3. eexists. split; [done|]. simpl. split; [done|]. split.
    { intros x Hx. rewrite Hs, lookup_insert_ne by done. done. }
    split; [|done]. specialize (Hs n). rewrite lookup_insert in Hs. destruct (m3 !! n) as [e'|]; [|done]. exists e'. split; [done|].
    rewrite He in Hs. simpl in Hs. injection Hs as H0 H1 H2 H4. unfold strip, put_route, new_ncap. simpl. rewrite H0, H1, H2, H4. done.
Qed.

Lemma rib_erase_ok n r R e old :
  hier (rb_map R) -> rb_map R !! n = Some e -> find_route r (re_routes e) = Some old ->
  exists R', rib_erase n r R = Some R' /\ hier (rb_map R') /\
    (forall x, x <> n -> strip <$> rb_map R' !! x = strip <$> rb_map R !! x) /\
    strip <$> rb_map R' !! n = (if bool_decide (drop_route r (re_routes e) = []) then None
      else Some (re_id e, drop_route r (re_routes e), (if rib_capture old then dec64 (re_ncap e) else re_ncap e), re_inherited e)) /\
    rb_faces R' = (if bool_decide (r_face r ∈ map r_face (drop_route r (re_routes e))) then rb_faces R
                   else remove_first (fun x => (fst x =? r_face r)%N && (snd x =? re_id e)%N) (rb_faces R)) /\
    rb_n R' = dec64 (rb_n R) /\ rb_next R' = rb_next R.
Proof.
  intros H He Hf. unfold rib_erase. rewrite He, Hf.
  set (e1 := erase_route r e).
  assert (He1 : re_routes e1 = drop_route r (re_routes e) /\ strip e1 = (re_id e, drop_route r (re_routes e), (if rib_capture old then dec64 (re_ncap e) else re_ncap e), re_inherited e)
     /\ re_parent e1 = re_parent e /\ re_children e1 = re_children e).
  { unfold e1, erase_route. rewrite Hf. by destruct (rib_capture old). }
  destruct He1 as (Hr1 & Hs1 & Hp1 & Hc1).
  assert (H1 : hier (<[n := e1]> (rb_map R))).
  { eapply hier_ext; [|exact H]. intros x. destruct (decide (x = n)) as [->|Hx]; [|by rewrite lookup_insert_ne].
    rewrite lookup_insert, He. simpl. by rewrite Hp1, Hc1. }
  assert (Hface : has_face (r_face r) e1 = bool_decide (r_face r ∈ map r_face (drop_route r (re_routes e)))).
  { unfold has_face. rewrite Hr1. apply eq_bool_prop_intro. rewrite bool_decide_spec. rewrite Is_true_true, existsb_exists. rewrite elem_of_list_fmap.
    split; intros (x & H2 & H3); exists x; [apply N.eqb_eq in H3; split; [done|by apply elem_of_list_In]|].
    split; [by apply elem_of_list_In|]. by apply N.eqb_eq. }
  rewrite Hface, Hr1. destruct (drop_route r (re_routes e)) as [|r0 l0] eqn:Ed.
  - destruct (erase_hier n _ H1) as (m2 & E2 & H2 & Hs2); [by rewrite lookup_insert; eexists|]. rewrite E2.
    eexists. split; [done|]. simpl. split; [done|]. split; [|split; [|done]].
    + intros x Hx. by rewrite Hs2, lookup_delete_ne, lookup_insert_ne by done.
    + by rewrite Hs2, lookup_delete.
  - eexists. split; [done|]. split; [done|]. simpl. split; [|split; [|done]].
    + intros x Hx. by rewrite lookup_insert_ne.
    + rewrite lookup_insert. simpl. by rewrite Hs1.
Qed.
Lemma rib_erase_none n r R : find_route r (routes_at R n) = None -> rib_erase n r R = Some R.
Proof.
  unfold rib_erase, routes_at. intros H. destruct (rb_map R !! n) as [e|]; [|done]. by rewrite H.
Qed.

Lemma modify_inherited_ok l m :
  (forall add n r, (add, n, r) ∈ l -> is_Some (m !! n)) -> is_Some (modify_inherited l m).
Proof.
  revert m. induction l as [|[[add n] r] l IH]; intros m H; [by eexists|].
  unfold modify_inherited in *. simpl. destruct (H add n r ltac:(left)) as [e He]. rewrite He. apply IH.
  intros a' n' r' Hi. rewrite lookup_insert_is_Some. destruct (decide (n = n')); [by left|right]. split; [done|]. eapply H. right. exact Hi.
Qed.
Lemma modify_inherited_frame l m m' :
  modify_inherited l m = Some m' ->
  forall x, (fun e => (re_id e, re_routes e, re_ncap e, re_parent e, re_children e)) <$> m' !! x =
            (fun e => (re_id e, re_routes e, re_ncap e, re_parent e, re_children e)) <$> m !! x.
Proof.
  revert m. induction l as [|[[add n] r] l IH]; intros m H x; unfold modify_inherited in *; simpl in H; [by injection H as ->|].
  destruct (m !! n) as [e|] eqn:E; [|done]. rewrite (IH _ H). destruct (decide (x = n)) as [->|Hx]; [|by rewrite lookup_insert_ne].
  rewrite lookup_insert, E. by destruct add.
Qed.
Lemma modify_inherited_some l m m' add n r : modify_inherited l m = Some m' -> (add, n, r) ∈ l -> is_Some (m !! n).
Proof.
  revert m. induction l as [|[[a n0] r0] l IH]; intros m H Hi; [by apply elem_of_nil in Hi|]. unfold modify_inherited in *. simpl in H.
  destruct (m !! n0) as [e|] eqn:E; [|done]. apply elem_of_cons in Hi as [[= -> -> ->]|Hi]; [by eexists|].
  specialize (IH _ H Hi). rewrite lookup_insert_is_Some in IH. destruct IH as [<-|[_ IH]]; [by eexists|done].
Qed.

(** * Invariant *)
Record rib_inv (R : rib) : Prop := {
  ri_hier : hier (rb_map R);
  ri_routes : forall n e, rb_map R !! n = Some e -> re_routes e <> [] /\ NoDup (map key (re_routes e)) /\ (re_id e < rb_next R)%N;
  ri_faces : forall n e r, rb_map R !! n = Some e -> r ∈ re_routes e -> (r_face r, re_id e) ∈ rb_faces R;
  ri_ids : forall n n' e e', rb_map R !! n = Some e -> rb_map R !! n' = Some e' -> re_id e = re_id e' -> n = n';
  ri_n : rb_n R = (N.of_nat (count (rb_map R)) mod U64)%N;
}.
Lemma rib_inv_empty : rib_inv rib_empty.
Proof.
  split; [apply hier_empty|..]; simpl.
  1-3: intros n *; by rewrite lookup_empty.
  done.
Qed.
Lemma U64_pos : (0 < U64)%N. Proof. done. Qed.
Lemma inc64_mod n : inc64 (n mod U64) = ((n + 1) mod U64)%N.
Proof. unfold inc64. rewrite N.add_mod_idemp_l by (by intros H; pose proof U64_pos; rewrite H in *). done. Qed.
Lemma dec64_mod n : dec64 ((n + 1) mod U64) = (n mod U64)%N.
Proof.
  pose proof U64_pos as Hp. unfold dec64. rewrite N.add_mod_idemp_l by lia. replace (n + 1 + (U64 - 1))%N with (n + 1 * U64)%N by lia.
  by rewrite N.mod_add by lia.
Qed.
Lemma put_route_len r l : length (put_route r l) = match find_route r l with None => S (length l) | Some _ => length l end.
Proof.
  unfold put_route. destruct (find_route r l) as [x|] eqn:E; [|rewrite app_length; simpl; lia].
  destruct (remove_first_split _ _ _ E) as (l1 & l2 & -> & _ & -> & _). rewrite !app_length. done.
Qed.
Lemma put_route_nodup r l : NoDup (map key l) -> NoDup (map key (put_route r l)).
Proof.
  unfold put_route. destruct (find_route r l) as [x|] eqn:E.
  - pose proof (find_route_some _ _ _ E) as [_ Hk]. destruct (remove_first_split _ _ _ E) as (l1 & l2 & -> & _ & -> & _).
    rewrite !map_app. simpl. by rewrite Hk.
  - intros H. rewrite map_app. simpl. apply NoDup_app. split; [done|]. split; [|apply NoDup_singleton].
    intros k Hk ->%elem_of_list_singleton. apply find_route_none in E. done.
Qed.
Lemma put_route_in r l x : x ∈ put_route r l -> x = r \/ x ∈ l.
Proof.
  unfold put_route. destruct (find_route r l) as [y|] eqn:E.
  - destruct (remove_first_split _ _ _ E) as (l1 & l2 & -> & _ & -> & _). set_solver.
  - set_solver.
Qed.
Lemma drop_route_split r l old : find_route r l = Some old -> exists l1 l2, l = l1 ++ old :: l2 /\ drop_route r l = l1 ++ l2.
Proof. intros E. destruct (remove_first_split _ _ _ E) as (l1 & l2 & -> & Hd & _). by exists l1, l2. Qed.

Lemma strip_lookup (m m' : rmap) x e' : strip <$> m' !! x = strip <$> m !! x -> m' !! x = Some e' -> exists e, m !! x = Some e /\ strip e' = strip e.
Proof. intros H He. rewrite He in H. destruct (m !! x) as [e|]; [|done]. exists e. split; [done|]. simpl in H. by apply (inj Some) in H. Qed.

Lemma rib_insert_inv n r R R' : rib_inv R -> rib_insert n r R = Some R' -> rib_inv R'.
Proof.
  intros H E. destruct (rib_insert_ok n r R (ri_hier R H)) as (R1 & E1 & Hh & Hx & (e' & He' & Hs & Hf) & Hn & Hnext).
  rewrite E in E1. injection E1 as <-.
  assert (Hid : (re_id e' < rb_next R')%N).
  { injection Hs as Hid _ _ _. rewrite Hid, Hnext. destruct (rb_map R !! n) as [e|] eqn:En; [|lia]. by apply (ri_routes R H n e). }
  split; [done|..].
  - intros x ex Hex. destruct (decide (x = n)) as [->|Hne].
    + rewrite He' in Hex. injection Hex as <-. injection Hs as _ Hr _ _. rewrite Hr. split; [|split; [|done]].
      * intros El. apply (f_equal length) in El. rewrite put_route_len in El. destruct (find_route r (routes_at R n)) eqn:Ef; [|done].
        unfold routes_at in *. destruct (rb_map R !! n) as [e|] eqn:En; [|done]. apply (ri_routes R H n e En). by apply nil_length_inv.
      * apply put_route_nodup. unfold routes_at. destruct (rb_map R !! n) as [e|] eqn:En; [|constructor]. by apply (ri_routes R H n e En).
    + destruct (strip_lookup _ _ _ _ (Hx x Hne) Hex) as (e & He & Hse). injection Hse as H1 H2 _ _. rewrite H1, H2.
      destruct (ri_routes R H x e He) as (K1 & K2 & K3). split; [done|]. split; [done|]. rewrite Hnext. destruct (rb_map R !! n); lia.
  - intros x ex r' Hex Hr'. rewrite Hf. destruct (decide (x = n)) as [->|Hne].
    + rewrite He' in Hex. injection Hex as <-. injection Hs as Hid' Hr _ _. rewrite Hr in Hr'.
      unfold put_route in Hr'. destruct (find_route r (routes_at R n)) as [old|] eqn:Ef.
      * pose proof (find_route_some _ _ _ Ef) as [Ho Hk]. unfold routes_at in *. destruct (rb_map R !! n) as [e|] eqn:En; [|done]. rewrite Hid'.
        destruct (remove_first_split _ _ _ Ef) as (l1 & l2 & El & _ & Er & _). rewrite Er in Hr'.
        assert (exists r0, r0 ∈ re_routes e /\ r_face r0 = r_face r') as (r0 & H0 & <-).
        { apply elem_of_app in Hr' as [Hr'|[->|Hr']%elem_of_cons]; [exists r'; split; [rewrite El; set_solver|done]| |exists r'; split; [rewrite El; set_solver|done]].
          exists old. split; [done|]. by injection Hk. }
        by apply (ri_faces R H n e).
      * apply elem_of_app. apply elem_of_app in Hr' as [Hr'| ->%elem_of_list_singleton]; [|right; left].
        left. unfold routes_at in *. destruct (rb_map R !! n) as [e|] eqn:En; [|by apply elem_of_nil in Hr']. rewrite Hid'. by apply (ri_faces R H n e).
    + destruct (strip_lookup _ _ _ _ (Hx x Hne) Hex) as (e & He & Hse). injection Hse as H1 H2 _ _. rewrite H2 in Hr'. rewrite H1.
      pose proof (ri_faces R H x e r' He Hr'). destruct (find_route r (routes_at R n)); [done|]. apply elem_of_app. by left.
  - assert (Hfresh : forall x ex, x <> n -> rb_map R' !! x = Some ex -> re_id ex <> re_id e').
    { intros x ex Hne Hex. destruct (strip_lookup _ _ _ _ (Hx x Hne) Hex) as (e & He & Hse). injection Hse as H1 _ _ _.
      injection Hs as Hid' _ _ _. rewrite H1, Hid'. destruct (rb_map R !! n) as [e0|] eqn:En.
      - intros K. apply Hne. by eapply (ri_ids R H).
      - destruct (ri_routes R H x e He) as (_ & _ & ?). lia. }
    intros x x' ex ex' Hex Hex' Hii. destruct (decide (x = n)) as [->|Hne], (decide (x' = n)) as [->|Hne']; [done|..].
    + rewrite He' in Hex. injection Hex as <-. by destruct (Hfresh x' ex' Hne' Hex').
    + rewrite He' in Hex'. injection Hex' as <-. by destruct (Hfresh x ex Hne Hex).
    + destruct (strip_lookup _ _ _ _ (Hx x Hne) Hex) as (e & He & Hse). destruct (strip_lookup _ _ _ _ (Hx x' Hne') Hex') as (e2 & He2 & Hse2).
      injection Hse as H1 _ _ _. injection Hse2 as H2 _ _ _. eapply (ri_ids R H); [done..|]. congruence.
  - rewrite Hn, (ri_n R H). injection Hs as _ Hr _ _.
    assert (count (rb_map R') = (length (put_route r (routes_at R n)) + count (delete n (rb_map R)))%nat) as ->.
    { rewrite (count_delete _ n e' He'), Hr. f_equal. apply count_ext. intros x. destruct (decide (x = n)) as [->|Hne]; [by rewrite !lookup_delete|].
      rewrite !lookup_delete_ne by done. specialize (Hx x Hne). destruct (rb_map R' !! x), (rb_map R !! x); simpl in *; try done. by injection Hx as _ -> _ _. }
    assert (count (rb_map R) = (length (routes_at R n) + count (delete n (rb_map R)))%nat) as ->.
    { unfold routes_at. destruct (rb_map R !! n) as [e|] eqn:En; [by apply count_delete|]. by rewrite delete_notin. }
    rewrite put_route_len. destruct (find_route r (routes_at R n)); [done|]. rewrite inc64_mod. f_equal. lia.
Qed.
Lemma rib_erase_inv n r R R' : rib_inv R -> rib_erase n r R = Some R' -> rib_inv R'.
Proof.
  intros H E. destruct (find_route r (routes_at R n)) as [old|] eqn:Ef.
  2:{ rewrite rib_erase_none in E by done. by injection E as <-. }
  unfold routes_at in Ef. destruct (rb_map R !! n) as [e|] eqn:En; [|done].
  destruct (rib_erase_ok n r R e old (ri_hier R H) En Ef) as (R1 & E1 & Hh & Hx & Hs & Hf & Hn & Hnext).
  rewrite E in E1. injection E1 as <-. destruct (drop_route_split _ _ _ Ef) as (l1 & l2 & El & Ed).
  destruct (ri_routes R H n e En) as (K1 & K2 & K3).
  assert (Hsn : forall e', rb_map R' !! n = Some e' -> re_id e' = re_id e /\ re_routes e' = l1 ++ l2 /\ l1 ++ l2 <> []).
  { intros e' He'. rewrite He' in Hs. rewrite Ed in Hs. case_bool_decide; [done|]. simpl in Hs. unfold strip in Hs. by injection Hs as -> -> _ _. }
  split; [done|..].
  - intros x ex Hex. rewrite Hnext. destruct (decide (x = n)) as [->|Hne].
    + destruct (Hsn ex Hex) as (-> & -> & Hne). split; [done|]. split; [|done]. rewrite El in K2. rewrite map_app in *. simpl in K2.
      apply NoDup_app in K2 as (J1 & J2 & J3). apply NoDup_cons in J3 as [_ J3]. apply NoDup_app. split; [done|]. split; [|done].
      intros k Hk Hk2. apply (J2 k Hk). by right.
    + destruct (strip_lookup _ _ _ _ (Hx x Hne) Hex) as (e0 & He0 & Hse). injection Hse as -> -> _ _. by apply (ri_routes R H x).
  - intros x ex r' Hex Hr'.
    assert (Hold : (r_face r', re_id ex) ∈ rb_faces R /\ (re_id ex = re_id e -> r_face r' ∈ map r_face (l1 ++ l2))).
    { destruct (decide (x = n)) as [->|Hne].
      - destruct (Hsn ex Hex) as (-> & Hr & _). rewrite Hr in Hr'. split; [|intros _; apply elem_of_list_fmap; by exists r'].
        apply (ri_faces R H n e r' En). rewrite El. set_solver.
      - destruct (strip_lookup _ _ _ _ (Hx x Hne) Hex) as (e0 & He0 & Hse). injection Hse as H1 H2 _ _. rewrite H1. rewrite H2 in Hr'.
        split; [by apply (ri_faces R H x e0)|]. intros K. destruct Hne. by eapply (ri_ids R H). }
    clear Hs. destruct Hold as [Hin Hfc]. rewrite Hf, Ed. clear Hf. case_bool_decide as Hb; [done|].
    destruct (List.find (fun x0 => (fst x0 =? r_face r)%N && (snd x0 =? re_id e)%N) (rb_faces R)) as [pr|] eqn:Ep.
    + destruct (remove_first_split _ _ _ Ep) as (k1 & k2 & Ek & Er & _ & Hpr & _). rewrite Er. rewrite Ek in Hin.
      apply elem_of_app in Hin as [Hin|[Hin|Hin]%elem_of_cons]; [set_solver| |set_solver].
      exfalso. apply Hb. subst pr. simpl in Hpr. apply andb_true_iff in Hpr as [H1%N.eqb_eq H2%N.eqb_eq]. rewrite <-H1. by apply Hfc.
    + assert (remove_first (fun x0 => (fst x0 =? r_face r)%N && (snd x0 =? re_id e)%N) (rb_faces R) = rb_faces R) as ->; [|done].
      clear -Ep. induction (rb_faces R) as [|y l IH]; simpl in *; [done|]. destruct (_ && _); [done|]. by rewrite IH.
  - assert (Hold : forall x ex, rb_map R' !! x = Some ex -> exists e0, rb_map R !! x = Some e0 /\ re_id ex = re_id e0).
    { intros x ex Hex. destruct (decide (x = n)) as [->|Hne]; [exists e; split; [done|by apply Hsn]|].
      destruct (strip_lookup _ _ _ _ (Hx x Hne) Hex) as (e0 & He0 & Hse). exists e0. split; [done|]. by injection Hse. }
    intros x x' ex ex' Hex Hex' Hii. destruct (Hold x ex Hex) as (a & Ha & Ha'). destruct (Hold x' ex' Hex') as (b & Hb & Hb').
    eapply (ri_ids R H); [done..|]. congruence.
  - rewrite Hn, (ri_n R H). rewrite (count_delete _ n e En), El.
    assert (count (rb_map R') = (length (l1 ++ l2) + count (delete n (rb_map R)))%nat) as ->.
    { assert (Hx' : count (delete n (rb_map R')) = count (delete n (rb_map R))).
      { apply count_ext. intros x. destruct (decide (x = n)) as [->|Hne]; [by rewrite !lookup_delete|].
        rewrite !lookup_delete_ne by done. specialize (Hx x Hne). destruct (rb_map R' !! x), (rb_map R !! x); simpl in *; try done. by injection Hx as _ -> _ _. }
      destruct (rb_map R' !! n) as [e'|] eqn:En'.
      - rewrite (count_delete _ n e' En'), Hx'. destruct (Hsn e' eq_refl) as (_ & -> & _). done.
      - rewrite Ed in Hs. case_bool_decide as Hb; [|done]. rewrite Hb, <-Hx'. simpl. by rewrite delete_notin. }
    rewrite !app_length. simpl. rewrite <-(dec64_mod (N.of_nat (length l1 + length l2 + count (delete n (rb_map R))))). do 2 f_equal. lia.
Qed.
Lemma rib_inherit_inv l R m : rib_inv R -> modify_inherited l (rb_map R) = Some m -> rib_inv (set_rb_map m R).
Proof.
  intros H E. pose proof (modify_inherited_frame _ _ _ E) as Hx.
  assert (Hl : forall x ex, m !! x = Some ex -> exists e, rb_map R !! x = Some e /\ re_id ex = re_id e /\ re_routes ex = re_routes e).
  { intros x ex Hex. specialize (Hx x). rewrite Hex in Hx. destruct (rb_map R !! x) as [e|]; [|done]. exists e. simpl in Hx. by injection Hx as -> -> _ _ _. }
  split; simpl.
  - eapply hier_ext; [|exact (ri_hier R H)]. intros x. specialize (Hx x). destruct (m !! x), (rb_map R !! x); simpl in *; try done. by injection Hx as _ _ _ -> ->.
  - intros n e He. destruct (Hl n e He) as (e0 & H0 & -> & ->). by apply (ri_routes R H n).
  - intros n e r He Hr. destruct (Hl n e He) as (e0 & H0 & H1 & H2). rewrite H1. rewrite H2 in Hr. by apply (ri_faces R H n e0).
  - intros n n' e e' He He' Hii. destruct (Hl n e He) as (e0 & H0 & H1 & _). destruct (Hl n' e' He') as (e0' & H0' & H1' & _).
    eapply (ri_ids R H); [done..|]. congruence.
  - rewrite (ri_n R H). do 2 f_equal. apply count_ext. intros x. specialize (Hx x). destruct (m !! x), (rb_map R !! x); simpl in *; try done. by injection Hx as _ -> _ _ _.
Qed.
Lemma rib_step_inv o R R' : rib_inv R -> rib_step o R = Some R' -> rib_inv R'.
Proof.
  intros H. destruct o as [n r|n r|l]; simpl.
  - by apply rib_insert_inv.
  - by apply rib_erase_inv.
  - destruct (modify_inherited l (rb_map R)) as [m|] eqn:E; [|done]. simpl. intros [= <-]. by eapply rib_inherit_inv.
Qed.
Lemma rib_run_inv l R : rib_run l = Some R -> rib_inv R.
Proof.
  unfold rib_run. assert (forall R0, rib_inv R0 -> each_of rib_step l R0 = Some R -> rib_inv R) as Hg; [|apply Hg, rib_inv_empty].
  induction l as [|o l IH]; intros R0 H0; simpl; [by intros [= <-]|].
  destruct (rib_step o R0) as [R1|] eqn:E; [|done]. apply IH. by eapply rib_step_inv.
Qed.
