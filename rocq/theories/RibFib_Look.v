(** The effect of lists of FIB updates and of inherited routes. *)
From stdpp Require Import gmap.
From Verif Require Import Lib Name_Model Name_Proof Tab_Model Rib_Model Rib_Spec RibFib_Model Rib_Tree Rib_Hier Rib_Inv.

Lemma find_none_all {A} (p : A -> bool) l : Forall (fun y => p y = false) l -> List.find p l = None.
Proof. induction 1 as [|x l Hx Hl IH]; simpl; [done|]. by rewrite Hx. Qed.
Definition is_at (n : name) (f : N) (u : fib_update) : bool := name_eqb n (fu_name u) && (f =? fu_face u)%N.
Lemma is_at_eq n f u : is_at n f u = true <-> n = fu_name u /\ f = fu_face u.
Proof. unfold is_at. by rewrite andb_true_iff, name_eqb_eq, N.eqb_eq. Qed.
Definition effect (u : fib_update) : option N := if fu_add u then Some (fu_cost u) else None.
Definition look_list (l : list fib_update) (n : name) (f : N) : option (option N) := option_map effect (List.find (is_at n f) l).
Definition ukey (u : fib_update) : name * N := (fu_name u, fu_face u).
Lemma look_put u l n f : look_list (put_update u l) n f = if is_at n f u then Some (effect u) else look_list l n f.
Proof.
  unfold look_list, put_update. change (fun x => name_eqb (fu_name u) (fu_name x) && (fu_face u =? fu_face x)%N) with (is_at (fu_name u) (fu_face u)).
  destruct (List.find (is_at (fu_name u) (fu_face u)) l) as [x|] eqn:E.
  - destruct (remove_first_split _ _ _ E) as (l1 & l2 & -> & _ & -> & Hx & Hl1). rewrite !find_app. simpl.
    apply is_at_eq in Hx as [H1 H2]. destruct (is_at n f u) eqn:Eu.
    + apply is_at_eq in Eu as [-> ->]. by rewrite find_none_all.
    + assert (is_at n f x = false) as ->; [|done]. unfold is_at in *. by rewrite <-H1, <-H2.
  - rewrite find_app. simpl. destruct (is_at n f u) eqn:Eu.
    + apply is_at_eq in Eu as [-> ->]. by rewrite E.
    + by destruct (List.find (is_at n f) l).
Qed.
Lemma put_keys u l k : k ∈ map ukey (put_update u l) <-> k = ukey u \/ k ∈ map ukey l.
Proof.
  unfold put_update. change (fun x => name_eqb (fu_name u) (fu_name x) && (fu_face u =? fu_face x)%N) with (is_at (fu_name u) (fu_face u)).
  destruct (List.find (is_at (fu_name u) (fu_face u)) l) as [x|] eqn:E.
  - destruct (remove_first_split _ _ _ E) as (l1 & l2 & -> & _ & -> & Hx & _). apply is_at_eq in Hx as [H1 H2].
    assert (ukey x = ukey u) as Hk by (unfold ukey; by rewrite H1, H2). rewrite !map_app. simpl. rewrite Hk. set_solver.
  - rewrite map_app. simpl. set_solver.
Qed.
Lemma put_nodup u l : NoDup (map ukey l) -> NoDup (map ukey (put_update u l)).
Proof.
  unfold put_update. change (fun x => name_eqb (fu_name u) (fu_name x) && (fu_face u =? fu_face x)%N) with (is_at (fu_name u) (fu_face u)).
  destruct (List.find (is_at (fu_name u) (fu_face u)) l) as [x|] eqn:E.
  - destruct (remove_first_split _ _ _ E) as (l1 & l2 & -> & _ & -> & Hx & _). apply is_at_eq in Hx as [H1 H2].
    assert (ukey x = ukey u) as Hk by (unfold ukey; by rewrite H1, H2). rewrite !map_app. simpl. by rewrite Hk.
  - intros H. rewrite map_app. simpl. apply NoDup_app. split; [done|]. split; [|apply NoDup_singleton].
    intros k Hk ->%elem_of_list_singleton. apply elem_of_list_fmap in Hk as (x & Hk & Hx). eapply find_none_in in Hx; [|exact E].
    apply not_true_iff_false in Hx. apply Hx, is_at_eq. by injection Hk.
Qed.

(** the state of the computation *)
Record upd_ok (s : upd) : Prop := {
  uo_batch : forall u, u ∈ u_batch s -> fu_face u = u_face s;
  uo_other : forall u, u ∈ u_other s -> fu_face u <> u_face s;
  uo_nodup1 : NoDup (map ukey (u_batch s));
  uo_nodup2 : NoDup (map ukey (u_other s));
}.
Definition look (s : upd) (n : name) (f : N) : option (option N) := look_list (if (f =? u_face s)%N then u_batch s else u_other s) n f.
Lemma put_in u l x : x ∈ put_update u l -> x = u \/ x ∈ l.
Proof.
  unfold put_update. destruct (List.find _ l) as [y|] eqn:E.
  - destruct (remove_first_split _ _ _ E) as (l1 & l2 & -> & _ & -> & _). set_solver.
  - set_solver.
Qed.
Lemma add_fib_update_ok u s : upd_ok s -> upd_ok (add_fib_update u s).
Proof.
  intros [H1 H2 H3 H4]. unfold add_fib_update. destruct (N.eqb_spec (fu_face u) (u_face s)) as [E|E]; split; simpl; try done.
  - intros x [->|Hx]%put_in; [done|by apply H1].
  - by apply put_nodup.
  - intros x [->|Hx]%put_in; [done|by apply H2].
  - by apply put_nodup.
Qed.
Lemma look_add u s n f : look (add_fib_update u s) n f = if is_at n f u then Some (effect u) else look s n f.
Proof.
  unfold look, add_fib_update. destruct (N.eqb_spec (fu_face u) (u_face s)) as [E|E]; simpl.
  - destruct (N.eqb_spec f (u_face s)) as [E'|E']; [by apply look_put|].
    destruct (is_at n f u) eqn:Eu; [|done]. apply is_at_eq in Eu as [_ ->]. done.
  - destruct (N.eqb_spec f (u_face s)) as [E'|E']; [|by apply look_put].
    destruct (is_at n f u) eqn:Eu; [|done]. apply is_at_eq in Eu as [_ ->]. done.
Qed.
Lemma u_face_add u s : u_face (add_fib_update u s) = u_face s.
Proof. unfold add_fib_update. by destruct (_ =? _)%N. Qed.
Lemma u_inh_add u s : u_inh (add_fib_update u s) = u_inh s.
Proof. unfold add_fib_update. by destruct (_ =? _)%N. Qed.
Lemma look_inherit a n0 r s n f : look (inherit a n0 r s) n f = look s n f.
Proof. done. Qed.
Lemma inherit_ok a n r s : upd_ok s -> upd_ok (inherit a n r s).
Proof. by intros []. Qed.

(** ** The log of inherited routes *)
Definition ilook_list (l : list (bool * name * route)) (n : name) (f : N) : option bool :=
  fold_left (fun acc x => if name_eqb n (snd (fst x)) && (f =? r_face (snd x))%N then Some (fst (fst x)) else acc) l None.
Definition ilook (s : upd) (n : name) (f : N) : option bool := ilook_list (u_inh s) n f.
Lemma ilook_add u s n f : ilook (add_fib_update u s) n f = ilook s n f.
Proof. unfold ilook. by rewrite u_inh_add. Qed.
Lemma ilook_inherit a n0 r s n f : ilook (inherit a n0 r s) n f = if name_eqb n n0 && (f =? r_face r)%N then Some a else ilook s n f.
Proof. unfold ilook, ilook_list, inherit. simpl. rewrite fold_left_app. simpl. done. Qed.

Definition inhb (m : rmap) (n : name) (f : N) : bool := match m !! n with Some e => existsb (fun x => r_face x =? f)%N (re_inherited e) | None => false end.
Lemma existsb_filter_face (f g : N) l :
  existsb (fun x => r_face x =? f)%N (List.filter (fun x => negb (r_face x =? g)%N) l) = negb (f =? g)%N && existsb (fun x => r_face x =? f)%N l.
Proof.
  induction l as [|x l IH]; simpl; [by rewrite andb_false_r|]. destruct (N.eqb_spec (r_face x) g) as [E|E]; simpl.
  - rewrite IH. destruct (N.eqb_spec f g), (N.eqb_spec (r_face x) f); simpl; congruence.
  - rewrite IH. destruct (N.eqb_spec f g), (N.eqb_spec (r_face x) f); simpl; congruence.
Qed.
Lemma modify_inherited_inhb l m m' n f :
  modify_inherited l m = Some m' -> inhb m' n f = match ilook_list l n f with Some b => b | None => inhb m n f end.
Proof.
  revert m m'. induction l as [|[[a n0] r] l IH] using rev_ind; intros m m' H.
  - by injection H as <-.
  - unfold modify_inherited in H. rewrite each_of_app in H.
    match type of H with match ?x with _ => _ end = _ => change x with (modify_inherited l m) in H end.
    destruct (modify_inherited l m) as [m1|] eqn:E1; [|done]. simpl in H.
    destruct (m1 !! n0) as [e|] eqn:Ee; [|done]. injection H as <-. unfold ilook_list. rewrite fold_left_app. simpl.
    change (fold_left _ l None) with (ilook_list l n f). specialize (IH m m1 E1). unfold inhb in *.
    destruct (name_eqb n n0) eqn:En; simpl.
    + apply name_eqb_eq in En as ->. rewrite lookup_insert. rewrite Ee in IH. destruct a; simpl.
      * rewrite existsb_app. simpl. rewrite orb_false_r, (N.eqb_sym (r_face r) f). destruct (f =? r_face r)%N; [apply orb_true_r|by rewrite orb_false_r].
      * rewrite existsb_filter_face. by destruct (f =? r_face r)%N.
    + apply name_eqb_neq in En. by rewrite lookup_insert_ne.
Qed.

(** ** Applying the updates *)
Lemma apply_list dead l F n f :
  NoDup (map ukey l) ->
  fold_left (fun F x => fib_do dead x F) l F n f = match look_list l n f with Some c => if dead f then F n f else c | None => F n f end.
Proof.
  revert F. induction l as [|u l IH]; intros F Hnd; [done|]. simpl in Hnd. apply NoDup_cons in Hnd as [Hu Hnd]. simpl. rewrite IH by done.
  unfold look_list. simpl. destruct (is_at n f u) eqn:Eu.
  - apply is_at_eq in Eu as Ek. destruct Ek as [En Ef].
    assert (List.find (is_at n f) l = None) as ->.
    { destruct (List.find _ l) as [x|] eqn:E; [|done]. apply find_some_in in E as [Hx Hp]. apply is_at_eq in Hp as [H1 H2]. destruct Hu.
      apply elem_of_list_fmap. exists x. split; [|done]. unfold ukey. congruence. }
    simpl. unfold fib_do. rewrite <-Ef. destruct (dead f); [done|]. unfold is_at in Eu. rewrite Ef in Eu. by rewrite Ef, Eu.
  - assert (fib_do dead u F n f = F n f) as ->; [|done]. unfold fib_do. destruct (dead (fu_face u)); [done|]. unfold is_at in Eu. by rewrite Eu.
Qed.
Lemma look_list_none_other l n f : (forall u, u ∈ l -> fu_face u <> f) -> look_list l n f = None.
Proof.
  intros H. unfold look_list. destruct (List.find _ l) as [x|] eqn:E; [|done]. apply find_some_in in E as [Hx Hp]. apply is_at_eq in Hp as [_ Hp].
  by destruct (H x Hx).
Qed.
Lemma apply_upd dead s F n f :
  upd_ok s ->
  fold_left (fun F x => fib_do dead x F) (u_batch s ++ u_other s) F n f = match look s n f with Some c => if dead f then F n f else c | None => F n f end.
Proof.
  intros [H1 H2 H3 H4]. rewrite apply_list.
  - unfold look. assert (look_list (u_batch s ++ u_other s) n f = look_list (if (f =? u_face s)%N then u_batch s else u_other s) n f) as ->; [|done].
    unfold look_list. rewrite find_app. destruct (N.eqb_spec f (u_face s)) as [->|E].
    + destruct (List.find _ (u_batch s)) eqn:E0; [done|].
      pose proof (look_list_none_other (u_other s) n (u_face s) H2) as K. unfold look_list in K. by destruct (List.find _ (u_other s)).
    + pose proof (look_list_none_other (u_batch s) n f ltac:(intros u Hu; rewrite (H1 u Hu); congruence)) as K. unfold look_list in K.
      by destruct (List.find _ (u_batch s)).
  - rewrite map_app. apply NoDup_app. split; [done|]. split; [|done]. intros k (x & -> & Hx)%elem_of_list_fmap (y & E & Hy)%elem_of_list_fmap.
    apply H1 in Hx. apply H2 in Hy. unfold ukey in E. injection E as _ E. congruence.
Qed.
