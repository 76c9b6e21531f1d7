(** Ancestors and descendants of a RIB entry. *)
From stdpp Require Import gmap.
From Verif Require Import Lib Name_Model Name_Proof Tab_Model Rib_Model Rib_Spec RibFib_Model RibFib_Spec Rib_Tree Rib_Hier Rib_Inv RibFib_Look.

Fixpoint first_some {A B} (g : A -> option B) (l : list A) : option B :=
  match l with [] => None | x :: l' => match g x with Some y => Some y | None => first_some g l' end end.
Lemma first_some_app {A B} (g : A -> option B) l k : first_some g (l ++ k) = match first_some g l with Some y => Some y | None => first_some g k end.
Proof. induction l as [|x l IH]; simpl; [done|]. by destruct (g x). Qed.
Lemma first_some_none {A B} (g : A -> option B) l : first_some g l = None <-> forall x, x ∈ l -> g x = None.
Proof.
  induction l as [|x l IH]; simpl; [split; [intros _ x H; by apply elem_of_nil in H|done]|].
  destruct (g x) as [y|] eqn:E.
  - split; [done|]. intros H. rewrite H in E by left. done.
  - rewrite IH. split.
    + intros H z [->|Hz]%elem_of_cons; [done|by apply H].
    + intros H z Hz. apply H. by right.
Qed.
Lemma first_some_ext {A B} (g h : A -> option B) l : (forall x, x ∈ l -> g x = h x) -> first_some g l = first_some h l.
Proof. induction l as [|x l IH]; intros H; simpl; [done|]. rewrite (H x) by left. destruct (h x); [done|]. apply IH. intros; apply H; by right. Qed.

(** ** Prefixes *)
Lemma in_proper_prefixes q n : q ∈ proper_prefixes n <-> proper_prefix q n.
Proof.
  rewrite take_proper. unfold proper_prefixes. etransitivity; [apply elem_of_list_fmap|]. split.
  - intros (i & -> & Hi). exists i. split; [|done]. apply elem_of_list_In, in_rev, in_seq in Hi. lia.
  - intros (i & Hi & ->). exists i. split; [done|]. apply elem_of_list_In. rewrite <-in_rev. apply in_seq. lia.
Qed.
Lemma proper_prefixes_nodup n : NoDup (proper_prefixes n).
Proof.
  unfold proper_prefixes. apply NoDup_fmap_2_strong.
  - intros i j Hi%elem_of_list_In Hj%elem_of_list_In E. rewrite <-in_rev, in_seq in Hi, Hj. apply (f_equal length) in E.
    rewrite !take_length in E. lia.
  - apply NoDup_ListNoDup. apply NoDup_rev, seq_NoDup.
Qed.
Lemma pp_split n d : proper_prefix n d ->
  exists B, proper_prefixes d = B ++ n :: proper_prefixes n /\ forall q, q ∈ B <-> proper_prefix n q /\ proper_prefix q d.
Proof.
  intros Hp. assert (exists B, proper_prefixes d = B ++ n :: proper_prefixes n) as [B HB].
  { destruct Hp as [[k ->] Hne]. destruct k as [|c k]; [by rewrite app_nil_r in Hne|].
    unfold proper_prefixes. rewrite app_length. simpl. rewrite seq_app. simpl. rewrite rev_app_distr. simpl. rewrite map_app. rewrite map_app. simpl.
    eexists. rewrite <-app_assoc. simpl. rewrite take_app. do 2 f_equal. apply map_ext_in. intros i Hi. rewrite <-in_rev, in_seq in Hi.
    rewrite take_app_le by lia. done. }
  exists B. split; [done|]. pose proof (proper_prefixes_nodup d) as Hnd. rewrite HB in Hnd. apply NoDup_app in Hnd as (_ & Hd & _).
  intros q. split.
  - intros Hq. assert (proper_prefix q d) as Hqd by (apply in_proper_prefixes; rewrite HB; set_solver). split; [|done].
    destruct (prefix_cases n q d) as [->|[H|H]]; [apply Hp|apply Hqd| |done|].
    + exfalso. eapply Hd; [exact Hq|left].
    + exfalso. eapply Hd; [exact Hq|right]. by apply in_proper_prefixes.
  - intros [H1 H2]. apply in_proper_prefixes in H2. rewrite HB in H2. apply elem_of_app in H2 as [H2|[->|H2]%elem_of_cons]; [done|..].
    + by apply proper_irrefl in H1.
    + apply in_proper_prefixes in H2. exfalso. by eapply (proper_irrefl n), proper_trans.
Qed.

(** ** Inheritance *)
Definition rho_of (m : rmap) (n : name) : list route := match m !! n with Some e => re_routes e | None => [] end.
Definition on_ci (f : N) (r : route) : bool := (r_face r =? f)%N && child_inherit r.
Definition ci (rho : name -> list route) (q : name) (f : N) : option route := List.find (on_ci f) (rho q).
Definition own (rho : name -> list route) (n : name) (f : N) : option route := List.find (fun r => r_face r =? f)%N (rho n).
Definition isSome {A} (o : option A) : bool := match o with Some _ => true | None => false end.
(** the prefix decides what is inherited on the face below it *)
Definition blk (rho : name -> list route) (q : name) (f : N) : bool := isSome (ci rho q f) || captures (rho q).
Definition anc (rho : name -> list route) (n : name) (f : N) : option route := mjoin (first_some (fun q => if blk rho q f then Some (ci rho q f) else None) (proper_prefixes n)).
(** what the prefixes below get from [n] *)
Definition pass (rho : name -> list route) (n : name) (f : N) : option route :=
  match ci rho n f with Some r => Some r | None => if captures (rho n) then None else anc rho n f end.
Lemma blk_false rho q f : blk rho q f = false <-> ci rho q f = None /\ captures (rho q) = false.
Proof. unfold blk. destruct (ci rho q f), (captures (rho q)); simpl; naive_solver. Qed.
Lemma ci_face rho q f r : ci rho q f = Some r -> r_face r = f /\ child_inherit r = true /\ r ∈ rho q.
Proof. intros [H1 H2]%find_some_in. apply andb_true_iff in H2 as [H2%N.eqb_eq H3]. done. Qed.
Lemma anc_face rho n f r : anc rho n f = Some r -> r_face r = f.
Proof.
  unfold anc. induction (proper_prefixes n) as [|q l IH]; simpl; [done|]. destruct (blk rho q f); [|done]. simpl. intros E. by apply ci_face in E as [? _].
Qed.
Lemma blk_ext rho rho' q f : rho q = rho' q -> blk rho q f = blk rho' q f.
Proof. intros H. unfold blk, ci. by rewrite H. Qed.
Lemma anc_ext rho rho' n f : (forall q, proper_prefix q n -> rho q = rho' q) -> anc rho n f = anc rho' n f.
Proof. intros H. unfold anc. f_equal. apply first_some_ext. intros q Hq%in_proper_prefixes. rewrite (blk_ext rho rho') by (by apply H). unfold ci. by rewrite H. Qed.

Lemma anc_unblocked rho n d f : proper_prefix n d -> (forall q, proper_prefix n q -> proper_prefix q d -> blk rho q f = false) ->
  anc rho d f = pass rho n f.
Proof.
  intros Hp Hb. destruct (pp_split n d Hp) as (B & HB & Hin). unfold pass, anc. rewrite HB, first_some_app.
  assert (first_some (fun q => if blk rho q f then Some (ci rho q f) else None) B = None) as ->. { apply first_some_none. intros q [H1 H2]%Hin. by rewrite Hb. }
  simpl. unfold blk at 1. destruct (ci rho n f); simpl; [done|]. by destruct (captures (rho n)).
Qed.
Lemma anc_blocked rho rho' n d q f : proper_prefix n q -> proper_prefix q d -> blk rho q f = true ->
  (forall q, proper_prefix n q -> rho q = rho' q) -> anc rho d f = anc rho' d f.
Proof.
  intros Hnq Hqd Hb Hq. destruct (pp_split n d (proper_trans _ _ _ Hnq Hqd)) as (B & HB & Hin). unfold anc. rewrite HB, !first_some_app.
  rewrite (first_some_ext (fun q => if blk rho' q f then Some (ci rho' q f) else None) (fun q => if blk rho q f then Some (ci rho q f) else None) B);
    [|intros x [H1 _]%Hin; rewrite (blk_ext rho rho') by (by apply Hq); unfold ci; by rewrite Hq].
  destruct (first_some _ B) eqn:E; [done|]. rewrite first_some_none in E. exfalso. specialize (E q ltac:(by apply Hin)). by rewrite Hb in E.
Qed.
(** nothing is inherited if no shorter prefix has a route for its children on the face *)
Lemma anc_no_ci rho n f : (forall q, proper_prefix q n -> ci rho q f = None) -> anc rho n f = None.
Proof.
  intros H. unfold anc. assert (forall q, q ∈ proper_prefixes n -> ci rho q f = None) as K by (intros q Hq%in_proper_prefixes; by apply H).
  revert K. generalize (proper_prefixes n). intros l. induction l as [|q l IH]; intros K; simpl; [done|]. rewrite (K q) by left. destruct (blk rho q f); [done|]. apply IH. intros; apply K; by right.
Qed.

(** ** Sets of routes *)
Fixpoint rs_sorted (l : list route) : Prop := match l with [] => True | x :: l' => Forall (fun y => r_face x < r_face y)%N l' /\ rs_sorted l' end.
Definition rs_get (f : N) (l : list route) : option route := List.find (fun x => r_face x =? f)%N l.
Lemma rs_find_get r l : rs_find r l = rs_get (r_face r) l.
Proof. done. Qed.
Lemma rs_get_face f l r : rs_get f l = Some r -> r_face r = f /\ r ∈ l.
Proof. intros [H1 H2]%find_some_in. by apply N.eqb_eq in H2. Qed.
Lemma rs_get_above f l : Forall (fun y => f < r_face y)%N l -> rs_get f l = None.
Proof. intros H. apply find_none_all. eapply Forall_impl; [exact H|]. intros y Hy. simpl in Hy. apply N.eqb_neq. lia. Qed.
Lemma rs_insert_in r l x : x ∈ rs_insert r l -> x = r \/ x ∈ l.
Proof.
  induction l as [|y l IH]; simpl; [by intros ->%elem_of_list_singleton; left|].
  destruct (_ <? _)%N; [rewrite elem_of_cons; tauto|]. destruct (_ <? _)%N; [|tauto]. rewrite !elem_of_cons. intros [->|H]; [tauto|]. apply IH in H. tauto.
Qed.
Lemma rs_insert_sorted r l : rs_sorted l -> rs_sorted (rs_insert r l).
Proof.
  induction l as [|x l IH]; simpl; [by constructor|]. intros [Hf Hs]. destruct (N.ltb_spec (r_face r) (r_face x)) as [Hl|Hl]; simpl.
  - split; [|done]. constructor; [done|]. eapply Forall_impl; [exact Hf|]. intros y Hy. simpl in Hy. lia.
  - destruct (N.ltb_spec (r_face x) (r_face r)) as [Hl'|Hl']; simpl; [|done]. split; [|by apply IH].
    apply Forall_forall. intros y [->|Hy]%rs_insert_in; [done|]. rewrite Forall_forall in Hf. by apply Hf.
Qed.
Lemma rs_insert_get r l f : rs_sorted l -> rs_get f (rs_insert r l) = match rs_get f l with Some x => Some x | None => if (r_face r =? f)%N then Some r else None end.
Proof.
  unfold rs_get. induction l as [|x l IH]; simpl; [done|]. intros [Hf Hs]. destruct (N.ltb_spec (r_face r) (r_face x)) as [Hl|Hl]; simpl.
  - destruct (N.eqb_spec (r_face r) f) as [E|E].
    + destruct (N.eqb_spec (r_face x) f); [lia|].
      assert (rs_get f l = None) as K. { apply rs_get_above. eapply Forall_impl; [exact Hf|]. intros y Hy. simpl in Hy. lia. }
      unfold rs_get in K. by rewrite K.
    + destruct (r_face x =? f)%N; [done|]. by destruct (List.find _ l).
  - destruct (N.ltb_spec (r_face x) (r_face r)) as [Hl'|Hl']; simpl.
    + destruct (r_face x =? f)%N; [done|]. by apply IH.
    + destruct (N.eqb_spec (r_face x) f) as [E|E]; [done|]. destruct (N.eqb_spec (r_face r) f); [lia|]. by destruct (List.find _ l).
Qed.
Lemma rs_remove_sorted r l : rs_sorted l -> rs_sorted (rs_remove r l).
Proof.
  induction l as [|x l IH]; simpl; [done|]. intros [Hf Hs]. destruct (negb _); simpl; [|by apply IH]. split; [|by apply IH].
  apply Forall_forall. intros y Hy%elem_of_list_In. apply filter_In in Hy as [Hy _]. apply elem_of_list_In in Hy. rewrite Forall_forall in Hf. by apply Hf.
Qed.
Lemma rs_remove_get r l f : rs_get f (rs_remove r l) = if (r_face r =? f)%N then None else rs_get f l.
Proof.
  unfold rs_get, rs_remove. induction l as [|x l IH]; simpl; [by destruct (_ =? _)%N|]. destruct (N.eqb_spec (r_face x) (r_face r)) as [E|E]; simpl.
  - rewrite IH. destruct (N.eqb_spec (r_face r) f), (N.eqb_spec (r_face x) f); congruence.
  - rewrite IH. destruct (N.eqb_spec (r_face r) f), (N.eqb_spec (r_face x) f); congruence.
Qed.
Lemma rs_sorted_nodup l : rs_sorted l -> NoDup (map r_face l).
Proof.
  induction l as [|x l IH]; simpl; [constructor|]. intros [Hf Hs]. constructor; [|by apply IH]. intros (y & E & Hy)%elem_of_list_fmap.
  rewrite Forall_forall in Hf. specialize (Hf y Hy). simpl in Hf. lia.
Qed.

(** ** getAncestorRoutes *)
(** the count of capturing routes is right *)
Definition count_ok (m : rmap) : Prop := forall n e, m !! n = Some e -> has_capture e = captures (re_routes e).
Lemma blk_unreg (m : rmap) q f : m !! q = None -> blk (rho_of m) q f = false.
Proof. intros H. unfold blk, ci, rho_of. by rewrite H. Qed.
Lemma anc_parent (m : rmap) n f : anc (rho_of m) n f = match find_parent m n with None => None | Some p => pass (rho_of m) p f end.
Proof.
  destruct (find_parent m n) as [p|] eqn:E.
  - apply find_parent_some in E as (Hp & Hpn & Hmax). apply anc_unblocked; [done|]. intros q H1 H2.
    destruct (m !! q) eqn:Eq; [|by apply blk_unreg]. exfalso. eapply (proper_irrefl p), proper_le_prefix; [exact H1|]. apply Hmax; [by eexists|done].
  - apply anc_no_ci. intros q Hq. unfold ci, rho_of. by rewrite (proj1 (find_parent_none m n) E q Hq).
Qed.
Definition nreg (m : rmap) (n : name) : nat := length (List.filter (fun q => isSome (m !! q)) (proper_prefixes n)).
Lemma nreg_parent (m : rmap) n p : find_parent m n = Some p -> nreg m n = S (nreg m p).
Proof.
  intros (Hp & Hpn & Hmax)%find_parent_some. destruct (pp_split p n Hpn) as (B & HB & Hin). unfold nreg. rewrite HB, List.filter_app. simpl.
  destruct Hp as [e He]. rewrite He. simpl. rewrite app_length. simpl.
  assert (List.filter (fun q => isSome (m !! q)) B = []) as ->; [|done].
  apply elem_of_nil_inv. intros q Hq%elem_of_list_In. apply filter_In in Hq as [Hq Hs]. apply elem_of_list_In, Hin in Hq as [H1 H2].
  eapply (proper_irrefl p), proper_le_prefix; [exact H1|]. apply Hmax; [|done]. destruct (m !! q); [by eexists|done].
Qed.
Lemma rib_names_nodup m : NoDup (rib_names m).
Proof. apply sorted_names_nodup, rib_names_sorted. Qed.
Lemma rib_names_length (m : rmap) : length (rib_names m) = size m.
Proof.
  unfold rib_names. transitivity (length (map fst (map_to_list m))); [|rewrite map_length; done].
  induction (map fst (map_to_list m)) as [|x l IH]; simpl; [done|]. rewrite <-IH. clear IH.
  induction (foldr ins_name [] l) as [|y k IHk]; simpl; [done|]. destruct (name_cmp x y); simpl; lia.
Qed.
Lemma sub_size (m : rmap) (l : list name) : NoDup l -> (forall q, q ∈ l -> is_Some (m !! q)) -> (length l <= size m)%nat.
Proof.
  intros Hnd H. rewrite <-rib_names_length. apply NoDup_incl_length; [by apply NoDup_ListNoDup|].
  intros q Hq%elem_of_list_In. apply elem_of_list_In, rib_names_in. by apply H.
Qed.
Lemma nreg_size (m : rmap) n : (nreg m n <= size m)%nat.
Proof.
  unfold nreg. apply sub_size.
  - apply NoDup_ListNoDup, List.NoDup_filter, NoDup_ListNoDup, proper_prefixes_nodup.
  - intros q Hq%elem_of_list_In. apply filter_In in Hq as [_ Hq]. destruct (m !! q); [by eexists|done].
Qed.
Lemma collect_get l acc f :
  rs_sorted acc ->
  let acc' := fold_left (fun acc r => if child_inherit r then rs_insert r acc else acc) l acc in
  rs_sorted acc' /\ rs_get f acc' = match rs_get f acc with Some x => Some x | None => List.find (on_ci f) l end.
Proof.
  revert acc. induction l as [|x l IH]; intros acc Hs; simpl; [split; [done|by destruct (rs_get f acc)]|].
  unfold on_ci at 1. destruct (child_inherit x) eqn:E.
  - destruct (IH (rs_insert x acc) (rs_insert_sorted _ _ Hs)) as [H1 H2]. split; [done|]. rewrite H2, rs_insert_get by done.
    rewrite andb_true_r. destruct (rs_get f acc); [done|]. by destruct (r_face x =? f)%N.
  - rewrite andb_false_r. by apply IH.
Qed.
Lemma ancestors_from_ok (m : rmap) fuel n acc :
  hier m -> count_ok m -> (nreg m n <= fuel)%nat -> rs_sorted acc ->
  exists acc', ancestors_from fuel m (find_parent m n) acc = Some acc' /\ rs_sorted acc' /\
    forall f, rs_get f acc' = match rs_get f acc with Some x => Some x | None => anc (rho_of m) n f end.
Proof.
  intros Hh Hc. revert n acc. induction fuel as [|fuel IH]; intros n acc Hn Hs.
  - destruct (find_parent m n) as [p|] eqn:E; [apply nreg_parent in E; lia|]. simpl. exists acc. split; [done|]. split; [done|].
    intros f. rewrite anc_parent, E. by destruct (rs_get f acc).
  - destruct (find_parent m n) as [p|] eqn:E.
    + pose proof (nreg_parent _ _ _ E) as Hp. simpl. apply find_parent_some in E as E'. destruct E' as ([e He] & _). rewrite He.
      set (acc1 := fold_left _ (re_routes e) acc). assert (Hs1 : rs_sorted acc1) by (by apply (collect_get _ _ 0%N)).
      rewrite (Hc p e He). rewrite (h_parent m Hh p e He).
      assert (Hci : forall f, ci (rho_of m) p f = List.find (on_ci f) (re_routes e)) by (intros f; unfold ci, rho_of; by rewrite He).
      assert (Hcap : captures (rho_of m p) = captures (re_routes e)) by (unfold rho_of; by rewrite He).
      destruct (captures (re_routes e)) eqn:Ec.
      * exists acc1. split; [done|]. split; [done|]. intros f. unfold acc1. rewrite (proj2 (collect_get (re_routes e) acc f Hs)).
        rewrite (anc_parent m n), E. unfold pass. rewrite Hci, Hcap. destruct (rs_get f acc); [done|]. by destruct (List.find _ _).
      * destruct (IH p acc1 ltac:(lia) Hs1) as (acc' & E' & Hs' & Hg).
        exists acc'. split; [done|]. split; [done|]. intros f. rewrite Hg. unfold acc1. rewrite (proj2 (collect_get (re_routes e) acc f Hs)).
        rewrite (anc_parent m n), E. unfold pass. rewrite Hci, Hcap. destruct (rs_get f acc); [done|]. by destruct (List.find _ _).
    + simpl. exists acc. split; [done|]. split; [done|]. intros f. rewrite anc_parent, E. by destruct (rs_get f acc).
Qed.
Lemma ancestor_routes_ok (m : rmap) n :
  hier m -> count_ok m -> exists l, ancestor_routes m (find_parent m n) = Some l /\ rs_sorted l /\ forall f, rs_get f l = anc (rho_of m) n f.
Proof.
  intros Hh Hc. destruct (ancestors_from_ok m (S (size m)) n [] Hh Hc) as (l & E & Hs & Hg); [pose proof (nreg_size m n); lia|done|].
  exists l. split; [done|]. split; [done|]. intros f. by rewrite Hg.
Qed.

(** ** traverseSubTree *)
Definition own_on (m : rmap) (n : name) (f : N) : bool := isSome (own (rho_of m) n f).
Lemma find_existsb {A} (p : A -> bool) l : existsb p l = isSome (List.find p l).
Proof. induction l as [|x l IH]; simpl; [done|]. by destruct (p x). Qed.
Lemma keep_get e f l : rs_get f (List.filter (fun r => negb (child_inherit_on (r_face r) e)) l) = if child_inherit_on f e then None else rs_get f l.
Proof.
  unfold rs_get. induction l as [|x l IH]; simpl; [by destruct (child_inherit_on f e)|].
  destruct (child_inherit_on (r_face x) e) eqn:E; simpl; rewrite IH; destruct (N.eqb_spec (r_face x) f) as [<-|Hne]; rewrite ?E; done.
Qed.
Lemma rs_filter_sorted p l : rs_sorted l -> rs_sorted (List.filter p l).
Proof.
  induction l as [|x l IH]; simpl; [done|]. intros [Hf Hs]. destruct (p x); simpl; [|by apply IH]. split; [|by apply IH].
  apply Forall_forall. intros y Hy%elem_of_list_In. apply filter_In in Hy as [Hy _]. apply elem_of_list_In in Hy. rewrite Forall_forall in Hf. by apply Hf.
Qed.

