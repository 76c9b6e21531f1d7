From stdpp Require Import gmap.
From Verif Require Import Lib Name_Model Name_Proof Rib_Model Rib_Hier Rib_Inv Readv_Model Readv_Spec.

Lemma obind_inv {A B} (o : option A) (g : A -> option B) y : obind o g = Some y -> exists x, o = Some x /\ g x = Some y.
Proof. destruct o as [x|]; [|done]. by exists x. Qed.
Lemma rkey_eqb_eq a b : rkey_eqb a b = true <-> a = b.
Proof. unfold rkey_eqb. rewrite !andb_true_iff, name_eqb_eq, !N.eqb_eq. destruct a as [[] ?], b as [[] ?]; simpl. split; [by intros [[-> ->] ->]|by intros [= -> -> ->]]. Qed.
Lemma rkey_eqb_neq a b : rkey_eqb a b = false <-> a <> b.
Proof. by rewrite <-rkey_eqb_eq, not_true_iff_false. Qed.
Lemma in_lfilter {A} (p : A -> bool) l x : x ∈ List.filter p l <-> x ∈ l /\ p x = true.
Proof. rewrite !elem_of_list_In. apply filter_In. Qed.
Lemma nodup_map_inj {A B} (f : A -> B) l x y : NoDup (map f l) -> x ∈ l -> y ∈ l -> f x = f y -> x = y.
Proof.
  induction l as [|z l IH]; [intros _ Hx; by apply elem_of_nil in Hx|]. simpl. intros [Hz Hn]%NoDup_cons [->|Hx]%elem_of_cons [->|Hy]%elem_of_cons E; try done.
  - destruct Hz. rewrite E. apply elem_of_list_fmap. by exists y.
  - destruct Hz. rewrite <-E. apply elem_of_list_fmap. by exists x.
  - by apply IH.
Qed.
Lemma nodup_map_filter {A B} (f : A -> B) (p : A -> bool) l : NoDup (map f l) -> NoDup (map f (List.filter p l)).
Proof.
  induction l as [|z l IH]; [done|]. simpl. intros [Hz Hn]%NoDup_cons. destruct (p z); [|by apply IH]. simpl. apply NoDup_cons. split; [|by apply IH].
  intros (x & E & [Hx _]%in_lfilter)%elem_of_list_fmap. destruct Hz. rewrite E. apply elem_of_list_fmap. by exists x.
Qed.

(** ** The nodes *)
Definition ops (out : list sent) (p : name) : list vop := map s_op (List.filter (fun c => name_eqb (s_prefix c) p) out).
Record node_ok (av : bool) (n : nat) (os : list vop) (r : rr) : Prop := {
  no_n : rr_n r = N.of_nat n;
  no_ops : forall o, o ∈ os -> o = if (n =? 0)%nat then Withdraw else Advertise;
  no_zero : n = 0%nat -> av = true /\ (length os <= 1)%nat /\ (os <> [] \/ exists d, rr_timer r = Some (Withdraw, d));
  no_some : n <> 0%nat -> forall d, rr_timer r = Some (Withdraw, d) -> os <> [];
  no_live : n <> 0%nat -> av = true -> os <> [] \/ exists d, rr_timer r = Some (Advertise, d);
}.
Definition ref_ok (rrs : list rr) (x : rkey * action) (y : rkey * N) : Prop :=
  fst x = fst y /\ exists r, r ∈ rrs /\ rr_id r = snd y /\ rr_prefix r = a_prefix (snd x).
(** [D]: the prefixes that were advertised since the destination became available *)
Record rinv (A : list (rkey * action)) (D : name -> bool) (v : rv) : Prop := {
  rv_ids : NoDup (map rr_id (v_rrs v));
  rv_pfx : NoDup (map rr_prefix (v_rrs v));
  rv_lt : forall r, r ∈ v_rrs v -> (rr_id r < v_next v)%N;
  rv_map : Forall2 (ref_ok (v_rrs v)) A (v_map v);
  rv_keys : NoDup (map fst A);
  rv_node : forall r, r ∈ v_rrs v -> node_ok (v_avail v && D (rr_prefix r)) (n_routes A (rr_prefix r)) (ops (v_out v) (rr_prefix r)) r;
  rv_out : forall c, c ∈ v_out v -> exists r, r ∈ v_rrs v /\ rr_id r = s_rr c /\ rr_prefix r = s_prefix c;
  rv_seen : forall p, v_avail v && D p = true -> is_advertise (last_seen (v_seen v) p) = negb (n_routes A p =? 0)%nat;
}.
Lemma find_id_iff v id r : NoDup (map rr_id (v_rrs v)) -> find_id id v = Some r <-> r ∈ v_rrs v /\ rr_id r = id.
Proof.
  intros Hn. unfold find_id. split.
  - intros [H1 H2]%find_some_in. unfold has_id in H2. by apply N.eqb_eq in H2.
  - intros [H1 H2]. destruct (List.find (has_id id) (v_rrs v)) as [x|] eqn:E.
    + apply find_some_in in E as [Hx Hid]. apply N.eqb_eq in Hid. f_equal. eapply nodup_map_inj; try done. by rewrite Hid.
    + eapply find_none_in in E; [|exact H1]. unfold has_id in E. by rewrite H2, N.eqb_refl in E.
Qed.
Lemma find_pfx_iff l p r : NoDup (map rr_prefix l) -> List.find (fun r => name_eqb (rr_prefix r) p) l = Some r <-> r ∈ l /\ rr_prefix r = p.
Proof.
  intros Hn. split.
  - intros [H1 H2]%find_some_in. by apply name_eqb_eq in H2.
  - intros [H1 H2]. destruct (List.find _ l) as [x|] eqn:E.
    + apply find_some_in in E as [Hx Hid]. apply name_eqb_eq in Hid. f_equal. eapply nodup_map_inj; try done. by rewrite Hid.
    + eapply find_none_in in E; [|exact H1]. simpl in E. by rewrite H2, name_eqb_refl in E.
Qed.
Lemma find_pfx_none l p : List.find (fun r => name_eqb (rr_prefix r) p) l = None -> forall r, r ∈ l -> rr_prefix r <> p.
Proof. intros H r Hr E. eapply find_none_in in H; [|exact Hr]. simpl in H. by rewrite E, name_eqb_refl in H. Qed.

Lemma n_routes_in A p : n_routes A p <> 0%nat <-> exists x, x ∈ A /\ a_prefix (snd x) = p.
Proof.
  unfold n_routes. split.
  - destruct (List.filter _ A) as [|x l] eqn:E; [done|]. intros _. assert (H : x ∈ List.filter (fun x => name_eqb (a_prefix (snd x)) p) A) by (rewrite E; left).
    apply in_lfilter in H as [H1 H2]. apply name_eqb_eq in H2. by exists x.
  - intros (x & H1 & H2) E. apply nil_length_inv in E. assert (H : x ∈ List.filter (fun x => name_eqb (a_prefix (snd x)) p) A) by (apply in_lfilter; split; [done|by apply name_eqb_eq]).
    rewrite E in H. by apply elem_of_nil in H.
Qed.
Lemma rinv_node_of A D v p : rinv A D v -> n_routes A p <> 0%nat -> exists r, r ∈ v_rrs v /\ rr_prefix r = p.
Proof.
  intros I (x & Hx & <-)%n_routes_in. apply elem_of_list_lookup in Hx as [i Hi]. destruct (Forall2_lookup_l _ _ _ _ _ (rv_map _ _ _ I) Hi) as (y & _ & _ & r & Hr & _ & Hp). by exists r.
Qed.
Lemma ops_in out p : ops out p <> [] <-> exists c, c ∈ out /\ s_prefix c = p.
Proof.
  unfold ops. split.
  - destruct (List.filter _ out) as [|x l] eqn:E; [done|]. intros _. assert (H : x ∈ List.filter (fun c => name_eqb (s_prefix c) p) out) by (rewrite E; left).
    apply in_lfilter in H as [H1 H2]. apply name_eqb_eq in H2. by exists x.
  - intros (x & H1 & H2) E. assert (H : x ∈ List.filter (fun c => name_eqb (s_prefix c) p) out) by (apply in_lfilter; split; [done|by apply name_eqb_eq]).
    apply fmap_nil_inv in E. rewrite E in H. by apply elem_of_nil in H.
Qed.
Lemma ops_elem out p o : o ∈ ops out p <-> exists c, c ∈ out /\ s_op c = o /\ s_prefix c = p.
Proof.
  unfold ops. split.
  - intros (c & -> & [H1 H2]%in_lfilter)%elem_of_list_fmap. apply name_eqb_eq in H2. by exists c.
  - intros (c & H1 & <- & H2). apply elem_of_list_fmap. exists c. split; [done|]. apply in_lfilter. split; [done|]. by apply name_eqb_eq.
Qed.
Lemma quiet_ops v p : quiet v p <-> ops (v_out v) p = [].
Proof.
  split.
  - intros H. destruct (ops (v_out v) p) as [|o l] eqn:E; [done|]. destruct (H o). assert (Ho : o ∈ ops (v_out v) p) by (rewrite E; left). by apply ops_elem in Ho.
  - intros E o (c & H). assert (Ho : o ∈ ops (v_out v) p) by (apply ops_elem; by exists c). rewrite E in Ho. by apply elem_of_nil in Ho.
Qed.
Lemma ops_app a b p : ops (a ++ b) p = ops a p ++ ops b p.
Proof. unfold ops. by rewrite List.filter_app, map_app. Qed.
Lemma last_seen_app s x p : last_seen (s ++ [x]) p = match x with SeenUp => None | SeenAdvertise q _ _ | SeenWithdraw q => if name_eqb q p then Some x else last_seen s p end.
Proof. unfold last_seen. by rewrite fold_left_app. Qed.

(** one prefix changes *)
Lemma change A D v A' D' v' p (o : option rr) :
  rinv A D v ->
  (forall q, q <> p -> n_routes A' q = n_routes A q /\ D' q = D q /\ ops (v_out v') q = ops (v_out v) q /\ last_seen (v_seen v') q = last_seen (v_seen v) q) ->
  v_avail v' = v_avail v ->
  NoDup (map rr_id (v_rrs v')) -> NoDup (map rr_prefix (v_rrs v')) -> (forall r, r ∈ v_rrs v' -> (rr_id r < v_next v')%N) ->
  (forall x, x ∈ v_rrs v' <-> o = Some x \/ (x ∈ v_rrs v /\ rr_prefix x <> p)) ->
  Forall2 (ref_ok (v_rrs v')) A' (v_map v') -> NoDup (map fst A') ->
  (forall r, o = Some r -> rr_prefix r = p /\ node_ok (v_avail v && D' p) (n_routes A' p) (ops (v_out v') p) r) ->
  (forall c, c ∈ v_out v' -> (s_prefix c <> p /\ c ∈ v_out v) \/ (s_prefix c = p /\ exists r, o = Some r /\ rr_id r = s_rr c)) ->
  (v_avail v && D' p = true -> is_advertise (last_seen (v_seen v') p) = negb (n_routes A' p =? 0)%nat) ->
  rinv A' D' v'.
Proof.
  intros I Hq Hav H1 H2 H3 Hin H4 H5 Ho Hout Hs. split; try done.
  - intros r [Er|[Hr Hne]]%Hin; rewrite Hav.
    + destruct (Ho r Er) as [-> Hok]. done.
    + destruct (Hq _ Hne) as (-> & -> & -> & _). by apply (rv_node _ _ _ I).
  - intros c Hc. destruct (Hout c Hc) as [[Hne Hc']|[Hp (r & -> & Hid)]].
    + destruct (rv_out _ _ _ I c Hc') as (r & Hr & E1 & E2). exists r. split; [|done]. apply Hin. right. split; [done|]. by rewrite E2.
    + exists r. split; [apply Hin; by left|]. split; [done|]. rewrite Hp. by apply (Ho r eq_refl).
  - intros q. rewrite Hav. destruct (decide (q = p)) as [->|Hne]; [done|]. destruct (Hq q Hne) as (-> & -> & _ & ->). by apply (rv_seen _ _ _ I).
Qed.

(** updating a node in place *)
Section Update.
  Context (l : list rr) (r r' : rr) (Hid : NoDup (map rr_id l)) (Hpfx : NoDup (map rr_prefix l)) (Hr : r ∈ l) (Eid : rr_id r' = rr_id r) (Ep : rr_prefix r' = rr_prefix r).
  Local Notation l' := (map (fun x => if has_id (rr_id r) x then r' else x) l).
  Lemma upd_in x : x ∈ l' <-> Some r' = Some x \/ (x ∈ l /\ rr_prefix x <> rr_prefix r).
  Proof using Hid Hpfx Hr.
    rewrite elem_of_list_fmap. split.
    - intros (y & -> & Hy). unfold has_id. destruct (N.eqb_spec (rr_id y) (rr_id r)) as [E|E]; [by left|]. right. split; [done|]. intros E2. apply E. by rewrite (nodup_map_inj rr_prefix l y r).
    - intros [[= <-]|[Hx Hne]].
      + exists r. unfold has_id. by rewrite N.eqb_refl.
      + exists x. split; [|done]. unfold has_id. destruct (N.eqb_spec (rr_id x) (rr_id r)) as [E|E]; [|done]. destruct Hne. by rewrite (nodup_map_inj rr_id l x r).
  Qed.
  Lemma upd_ids : map rr_id l' = map rr_id l.
  Proof using Eid. rewrite map_map. apply map_ext. intros x. unfold has_id. destruct (N.eqb_spec (rr_id x) (rr_id r)) as [E|E]; [congruence|done]. Qed.
  Lemma upd_pfx : map rr_prefix l' = map rr_prefix l.
  Proof using Hid Hr Ep. rewrite map_map. apply map_ext_in. intros x Hx%elem_of_list_In. unfold has_id. destruct (N.eqb_spec (rr_id x) (rr_id r)) as [E|E]; [|done]. rewrite Ep. by rewrite (nodup_map_inj rr_id l x r). Qed.
  Lemma upd_ref x y : ref_ok l x y -> ref_ok l' x y.
  Proof using Hid Hpfx Hr Eid Ep.
    intros [E (z & Hz & E1 & E2)]. split; [done|]. destruct (decide (rr_prefix z = rr_prefix r)) as [E3|E3].
    - assert (z = r) as -> by (by apply (nodup_map_inj rr_prefix l)). exists r'. split; [apply upd_in; by left|]. by rewrite Eid, Ep.
    - exists z. split; [|done]. apply upd_in. by right.
  Qed.
End Update.
Lemma on_id_eq f r v : NoDup (map rr_id (v_rrs v)) -> r ∈ v_rrs v -> on_id (rr_id r) f v = set_rrs (map (fun x => if has_id (rr_id r) x then f r else x) (v_rrs v)) v.
Proof.
  intros Hn Hr. unfold on_id. f_equal. apply map_ext_in. intros x Hx%elem_of_list_In. unfold has_id. destruct (N.eqb_spec (rr_id x) (rr_id r)) as [E|E]; [|done]. by rewrite (nodup_map_inj rr_id (v_rrs v) x r).
Qed.
Lemma on_id_on_id id f g v : (forall r, rr_id (g r) = rr_id r) -> on_id id f (on_id id g v) = on_id id (fun r => f (g r)) v.
Proof.
  intros H. unfold on_id, set_rrs. simpl. f_equal. rewrite map_map. apply map_ext. intros x. unfold has_id. destruct (N.eqb_spec (rr_id x) id) as [E|E].
  - rewrite H, E, N.eqb_refl. done.
  - by rewrite (proj2 (N.eqb_neq _ _) E).
Qed.
Lemma find_on_id f r v : NoDup (map rr_id (v_rrs v)) -> r ∈ v_rrs v -> rr_id (f r) = rr_id r -> find_id (rr_id r) (on_id (rr_id r) f v) = Some (f r).
Proof.
  intros Hn Hr Hf. rewrite on_id_eq by done. apply find_id_iff; simpl.
  - rewrite map_map. erewrite map_ext; [exact Hn|]. intros x. unfold has_id. destruct (N.eqb_spec (rr_id x) (rr_id r)); [congruence|done].
  - split; [|done]. apply elem_of_list_fmap. exists r. unfold has_id. by rewrite N.eqb_refl.
Qed.
Lemma all_true (b : bool) : b && true = b. Proof. by destruct b. Qed.
