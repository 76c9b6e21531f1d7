(** Generic helpers shared by all components: comparison functions, list
    lemmas.  Nothing in this file models NFD code. *)
From stdpp Require Export base tactics list numbers option sets sorting.
From Coq Require Export ZArith NArith Lia ZifyBool ZifyNat ZifyN.

(* stdpp makes [id]-like coercions; keep arithmetic opaque to simpl *)
Global Arguments N.add : simpl never.
Global Arguments N.sub : simpl never.
Global Arguments N.mul : simpl never.
Global Arguments Z.add : simpl never.
Global Arguments Z.sub : simpl never.
Global Arguments Z.mul : simpl never.
Global Arguments N.compare : simpl never.
Global Arguments Z.compare : simpl never.

(** A three-way comparison function that decides a total order. *)
Record cmp_ok {A} (cmp : A -> A -> comparison) : Prop := {
  cmp_eq : forall x y, cmp x y = Eq <-> x = y;
  cmp_sym : forall x y, cmp y x = CompOpp (cmp x y);
  cmp_trans : forall x y z, cmp x y = Lt -> cmp y z = Lt -> cmp x z = Lt;
}.
Global Arguments cmp_eq {A cmp} _ x y.
Global Arguments cmp_sym {A cmp} _ x y.
Global Arguments cmp_trans {A cmp} _ x y z.

Lemma cmp_refl {A} {cmp : A -> A -> comparison} (H : cmp_ok cmp) x : cmp x x = Eq.
Proof. by apply H. Qed.

Lemma cmp_gt_lt {A} {cmp : A -> A -> comparison} (H : cmp_ok cmp) x y :
  cmp x y = Gt <-> cmp y x = Lt.
Proof. rewrite (cmp_sym H x y). destruct (cmp x y); naive_solver. Qed.

Lemma cmp_lt_gt {A} {cmp : A -> A -> comparison} (H : cmp_ok cmp) x y :
  cmp x y = Lt <-> cmp y x = Gt.
Proof. rewrite (cmp_sym H x y). destruct (cmp x y); naive_solver. Qed.

(** Lexicographic comparison of lists; a proper prefix is smaller. *)
Fixpoint lex_cmp {A} (cmp : A -> A -> comparison) (l k : list A) : comparison :=
  match l, k with
  | [], [] => Eq
  | [], _ :: _ => Lt
  | _ :: _, [] => Gt
  | x :: l', y :: k' =>
      match cmp x y with
      | Eq => lex_cmp cmp l' k'
      | r => r
      end
  end.

Lemma lex_cmp_ok {A} (cmp : A -> A -> comparison) : cmp_ok cmp -> cmp_ok (lex_cmp cmp).
Proof.
  intros H. split.
  - induction x as [|a x IH]; intros [|b y]; simpl; try naive_solver.
    destruct (cmp a b) eqn:E.
    + apply H in E as ->. rewrite IH. naive_solver.
    + split; [done|]. intros [= -> ->]. by rewrite (cmp_refl H) in E.
    + split; [done|]. intros [= -> ->]. by rewrite (cmp_refl H) in E.
  - induction x as [|a x IH]; intros [|b y]; simpl; try done.
    rewrite (cmp_sym H a b). destruct (cmp a b) eqn:E; simpl; auto.
  - induction x as [|a x IH]; intros [|b y] [|c z]; simpl; try done.
    destruct (cmp a b) eqn:E1; [|intros _|done].
    + apply H in E1 as ->. destruct (cmp b c) eqn:E2; try done. apply IH.
    + destruct (cmp b c) eqn:E2; [|intros _|done].
      * apply H in E2 as ->. by rewrite E1.
      * by rewrite (cmp_trans H _ _ _ E1 E2).
Qed.

Lemma N_cmp_ok : cmp_ok N.compare.
Proof.
  split.
  - intros; apply N.compare_eq_iff.
  - intros; apply N.compare_antisym.
  - intros x y z; rewrite !N.compare_lt_iff; apply N.lt_trans.
Qed.

Lemma nat_cmp_ok : cmp_ok Nat.compare.
Proof.
  split.
  - intros; apply Nat.compare_eq_iff.
  - intros; apply Nat.compare_antisym.
  - intros x y z; rewrite !Nat.compare_lt_iff; lia.
Qed.

Lemma lex_cmp_app {A} (cmp : A -> A -> comparison) (H : cmp_ok cmp) p l k :
  lex_cmp cmp (p ++ l) (p ++ k) = lex_cmp cmp l k.
Proof. induction p; simpl; [done|]. by rewrite (cmp_refl H). Qed.

(** Lexicographic product of two comparisons. *)
Definition pair_cmp {A B} (ca : A -> A -> comparison) (cb : B -> B -> comparison)
    (x y : A * B) : comparison :=
  match ca x.1 y.1 with
  | Eq => cb x.2 y.2
  | r => r
  end.

Lemma pair_cmp_ok {A B} (ca : A -> A -> comparison) (cb : B -> B -> comparison) :
  cmp_ok ca -> cmp_ok cb -> cmp_ok (pair_cmp ca cb).
Proof.
  intros HA HB. unfold pair_cmp. split.
  - intros [a b] [a' b']; simpl. destruct (ca a a') eqn:E.
    + apply HA in E as ->. rewrite (cmp_eq HB). naive_solver.
    + split; [done|]. intros [= -> ->]. by rewrite (cmp_refl HA) in E.
    + split; [done|]. intros [= -> ->]. by rewrite (cmp_refl HA) in E.
  - intros [a b] [a' b']; simpl. rewrite (cmp_sym HA a a').
    destruct (ca a a'); simpl; [apply HB|done|done].
  - intros [a b] [a' b'] [a'' b'']; simpl.
    destruct (ca a a') eqn:E1; [|intros _|done].
    + apply HA in E1 as ->. destruct (ca a' a'') eqn:E2; try done. apply HB.
    + destruct (ca a' a'') eqn:E2; [|intros _|done].
      * apply HA in E2 as ->. by rewrite E1.
      * by rewrite (cmp_trans HA _ _ _ E1 E2).
Qed.

Definition is_lt (c : comparison) : bool := match c with Lt => true | _ => false end.
Definition is_gt (c : comparison) : bool := match c with Gt => true | _ => false end.
Definition is_eq (c : comparison) : bool := match c with Eq => true | _ => false end.

(** closes list membership goals by propositional reasoning *)
Ltac mem :=
  first
  [ solve [set_solver]
  | solve [
  rewrite ?fmap_app, ?fmap_cons, ?elem_of_app, ?elem_of_cons, ?elem_of_list_singleton, ?elem_of_nil;
  rewrite ?fmap_app, ?fmap_cons, ?elem_of_app, ?elem_of_cons, ?elem_of_list_singleton, ?elem_of_nil in *;
  rewrite ?elem_of_app, ?elem_of_cons, ?elem_of_list_singleton, ?elem_of_nil in *;
  first [tauto | naive_solver]] ].

Lemma sublist_elem_of {A} (l k : list A) x : l `sublist_of` k -> x ∈ l -> x ∈ k.
Proof.
  induction 1 as [|y l k _ IH|y l k _ IH]; intros Hx; [done| |right; by apply IH].
  apply elem_of_cons in Hx as [->|Hx]; [left|right; by apply IH].
Qed.
Lemma sublist_nodup {A} (l k : list A) : l `sublist_of` k -> NoDup k -> NoDup l.
Proof.
  induction 1 as [|y l k Hs IH|y l k Hs IH]; [done|..]; intros [Hn Hnd]%NoDup_cons; [|by apply IH].
  apply NoDup_cons. split; [|by apply IH]. intros H. apply Hn. by eapply sublist_elem_of.
Qed.
Lemma sublist_map {A B} (f : A -> B) (l k : list A) : l `sublist_of` k -> (f <$> l) `sublist_of` (f <$> k).
Proof. induction 1; simpl; by constructor. Qed.
