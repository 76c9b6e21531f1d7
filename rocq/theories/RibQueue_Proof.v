From stdpp Require Import gmap.
From Verif Require Import Lib Name_Model Name_Proof Tab_Model Rib_Model Rib_Spec RibQueue_Model RibQueue_Spec Rib_Hier Rib_Inv Rib_Props RibFib_Look RibFib_Props.

(** ** The computed updates are well formed *)
Section Keep.
  Context (P : upd -> Prop) (Padd : forall u s, P s -> P (add_fib_update u s)) (Pinh : forall a n r s, P s -> P (inherit a n r s)).
  Lemma fold_keep {A} (g : upd -> A -> upd) l s : (forall s x, P s -> P (g s x)) -> P s -> P (fold_left g l s).
  Proof using. intros H. revert s. induction l as [|x l IH]; intros s Hs; simpl; [done|]. by apply IH, H. Qed.
  Lemma each_keep {A} (g : A -> upd -> option upd) l s s' : (forall x s s', g x s = Some s' -> P s -> P s') -> each_of g l s = Some s' -> P s -> P s'.
  Proof using.
    intros H. revert s. induction l as [|x l IH]; intros s; simpl; [by intros [= <-]|]. destruct (g x s) as [s1|] eqn:E; [|done]. intros K Hs. eapply IH; [done|]. by eapply H.
  Qed.
  Lemma traverse_keep fuel m add rem n s s' : traverse fuel m add rem n s = Some s' -> P s -> P s'.
  Proof using Padd Pinh.
    revert add rem n s s'. induction fuel as [|fuel IH]; intros add rem n s s'; simpl; [done|]. destruct (m !! n) as [e|]; [|done]. destruct (has_capture e); [by intros [= <-]|].
    intros K Hs. eapply each_keep; [|exact K|]; [intros; by eapply IH|].
    apply fold_keep; [intros s0 x H0; destruct (has_face _ _); auto|]. apply fold_keep; [intros s0 x H0; destruct (has_inherited _ _); auto|done].
  Qed.
  Lemma modify_keep m l add rem s s' : modify_children m l add rem s = Some s' -> P s -> P s'.
  Proof using Padd Pinh. apply each_keep. intros x s0 s1. apply traverse_keep. Qed.
  Lemma remove_inh_keep n e l s : P s -> P (remove_inherited_routes n e l s).
  Proof using Padd Pinh. apply fold_keep. intros s0 x H. destruct (has_inherited _ _); auto. Qed.
  Lemma add_inh_keep n e l s : P s -> P (add_inherited_routes n e l s).
  Proof using Padd Pinh. apply fold_keep. intros s0 x H. destruct (has_face _ _); auto. Qed.
  Lemma add_but_keep n l r s : P s -> P (add_inherited_but n l r s).
  Proof using Padd Pinh. apply fold_keep. intros s0 x H. destruct (_ =? _)%N; auto. Qed.
  Local Hint Resolve remove_inh_keep add_inh_keep add_but_keep : keep.
  Lemma new_route_keep m n e r cap s s' : for_new_route m n e r cap s = Some s' -> P s -> P s'.
  Proof using Padd Pinh.
    unfold for_new_route. intros (al & _ & (s2 & E2 & [= <-])%obind_some)%obind_some Hs. apply modify_keep in E2; [|destruct cap; auto with keep].
    destruct (match lowest_on _ _ with Some _ => _ | None => _ end); auto.
  Qed.
  Lemma updated_route_keep m n e r old s s' : for_updated_route m n e r old s = Some s' -> P s -> P s'.
  Proof using Padd Pinh.
    unfold for_updated_route. destruct (_ && negb _); [by intros [= <-]|]. intros (s1 & E1 & H)%obind_some Hs.
    assert (P s1) as H1.
    { destruct (negb (r_cost r =? r_cost old)%N); [|by injection E1 as <-]. apply obind_some in E1 as (low & _ & E1). destruct (_ <=? _)%N; [injection E1 as <-; auto|].
      destruct (_ <? _)%N; [|by injection E1 as <-]. apply obind_some in E1 as (p & _ & E1). injection E1 as <-. auto. }
    clear E1 Hs. destruct (_ && child_inherit r); [by eapply modify_keep|].
    apply obind_some in H as (s2 & E2 & H).
    assert (P s2) as H2.
    { destruct (negb (child_inherit old) && child_inherit r).
      - destruct (match lowest_inherit_on _ _ with Some _ => _ | None => _ end); [by eapply modify_keep|by injection E2 as <-].
      - destruct (child_inherit old && negb (child_inherit r)); [|by injection E2 as <-]. apply obind_some in E2 as (add & _ & E2). by eapply modify_keep. }
    clear E2 H1. destruct (negb (rib_capture old) && rib_capture r).
    - apply obind_some in H as (al & _ & H). eapply modify_keep; [exact H|]. auto with keep.
    - destruct (rib_capture old && negb (rib_capture r)); [|by injection H as <-]. apply obind_some in H as (al & _ & H). eapply modify_keep; [exact H|]. auto with keep.
  Qed.
  Lemma erased_route_keep m n e r off s s' : for_erased_route m n e r off s = Some s' -> P s -> P s'.
  Proof using Padd Pinh.
    unfold for_erased_route. intros (al & _ & (s1 & E1 & [= <-])%obind_some)%obind_some Hs.
    assert (P s1) as H1.
    { destruct (child_inherit r), (rib_capture r); [eapply modify_keep; [exact E1|]|eapply modify_keep; [exact E1|]|eapply modify_keep; [exact E1|]|injection E1 as <-]; auto with keep. }
    destruct (negb (has_capture e) && _); [|done]. destruct (rs_find r al); auto.
  Qed.
  Lemma unregister_keep m n r s s' : compute_unregister m n r s = Some s' -> P s -> P s'.
  Proof using Padd Pinh.
    unfold compute_unregister. destruct (m !! n) as [e|]; [|by intros [= <-]]. destruct (find_route _ _) as [old|]; [|by intros [= <-]].
    intros (s1 & E1 & (s2 & E2 & [= <-])%obind_some)%obind_some Hs. apply erased_route_keep in E1; [|done].
    assert (P s2). { destruct (second_on _ _); [by eapply new_route_keep|by injection E2 as <-]. }
    destruct (length _ =? 1)%nat; [|done]. unfold for_erased_entry. by apply fold_keep; auto.
  Qed.
  Lemma register_keep m n r s s' : compute_register m n r s = Some s' -> P s -> P s'.
  Proof using Padd Pinh.
    unfold compute_register. destruct (m !! _) as [e|].
    - destruct (find_route _ _); [apply updated_route_keep|apply new_route_keep].
    - unfold for_new_entry. intros (al & _ & H)%obind_some Hs. destruct (child_inherit _), (rib_capture _); try (eapply modify_keep; [exact H|]); auto with keep.
      injection H as <-. auto with keep.
  Qed.
End Keep.
Lemma compute_ok m u c : compute m u = Some c -> upd_ok c.
Proof.
  assert (H0 : upd_ok (Upd (r_face (ru_route u)) [] [] [])) by (split; simpl; try set_solver; constructor).
  unfold compute. destruct (ru_action u).
  - intros H. eapply (register_keep upd_ok); [..|exact H|exact H0]; [apply add_fib_update_ok|apply inherit_ok].
  - intros H. eapply (unregister_keep upd_ok); [..|exact H|exact H0]; [apply add_fib_update_ok|apply inherit_ok].
  - intros (s & H & [= <-])%obind_some. assert (upd_ok s) as [K1 K2 K3 K4].
    { eapply (unregister_keep upd_ok); [..|exact H|exact H0]; [apply add_fib_update_ok|apply inherit_ok]. }
    split; simpl; [set_solver|done|constructor|done].
Qed.
Lemma nodup_key l : NoDup (map ukey l) -> NoDup l.
Proof. apply (NoDup_fmap_1 ukey). Qed.

(** ** Equality of updates *)
Lemma fu_eqb_eq a b : fu_eqb a b = true <-> a = b.
Proof.
  unfold fu_eqb. rewrite !andb_true_iff, name_eqb_eq, !N.eqb_eq, Bool.eqb_true_iff. destruct a, b; simpl. split; [by intros (((-> & ->) & ->) & ->)|by intros [= -> -> -> ->]].
Qed.
Lemma fu_eqb_refl a : fu_eqb a a = true. Proof. by apply fu_eqb_eq. Qed.
Lemma elem_of_fu_remove u l x : x ∈ fu_remove u l <-> x ∈ l /\ x <> u.
Proof.
  unfold fu_remove. rewrite !elem_of_list_In, filter_In, negb_true_iff, <-not_true_iff_false, fu_eqb_eq. done.
Qed.
Lemma fu_remove_nodup u l : NoDup l -> NoDup (fu_remove u l).
Proof. intros H%NoDup_ListNoDup. by apply NoDup_ListNoDup, List.NoDup_filter. Qed.
Lemma fu_remove_perm u l k : NoDup l -> l ≡ₚ u :: k -> fu_remove u l ≡ₚ k.
Proof.
  intros Hl Hp. assert (Hk : NoDup (u :: k)) by (by rewrite <-Hp). apply NoDup_cons in Hk as [Hu Hk].
  apply NoDup_Permutation; [by apply fu_remove_nodup|done|]. intros x. rewrite elem_of_fu_remove, Hp. set_solver.
Qed.

(** ** The RIB follows the reports *)
Definition booked (q : queue) : Prop :=
  (exists ops, rib_run ops = Some (q_rib q)) /\ forall n f o, route_at (q_rib q) n f o = route_after (succeeded (q_log q)) n f o.
Lemma succeeded_app l k : succeeded (l ++ k) = succeeded l ++ succeeded k.
Proof. unfold succeeded. by rewrite List.filter_app, map_app. Qed.
Lemma route_after_snoc us u n f o : route_after (us ++ [u]) n f o =
  if bool_decide (n = ru_name u /\ f = r_face (ru_route u) /\ o = r_origin (ru_route u)) then match ru_action u with Register => Some (ru_route u) | _ => None end else route_after us n f o.
Proof. unfold route_after. by rewrite fold_left_app. Qed.
Lemma rib_apply_route ops u inh R R' : rib_run ops = Some R -> rib_apply u inh R = Some R' ->
  (exists ops', rib_run ops' = Some R') /\
  forall n f o, route_at R' n f o = if bool_decide (n = ru_name u /\ f = r_face (ru_route u) /\ o = r_origin (ru_route u)) then match ru_action u with Register => Some (ru_route u) | _ => None end else route_at R n f o.
Proof.
  intros Hops ER. unfold rib_apply in ER. apply obind_some in ER as (R1 & E1 & (m & Em & [= <-])%obind_some). split.
  - set (o := match ru_action u with Register => OInsert (ru_name u) (ru_route u) | _ => OErase (ru_name u) (ru_route u) end).
    exists (ops ++ [o; OInherit inh]). unfold rib_run in *. rewrite each_of_app, Hops. simpl.
    assert (rib_step o R = Some R1) as -> by (unfold o; by destruct (ru_action u)). simpl. by rewrite Em.
  - intros n f o. assert (route_at (set_rb_map m R1) n f o = route_at R1 n f o) as ->.
    { unfold route_at, routes_at. simpl. pose proof (modify_inherited_frame _ _ _ Em n) as K. destruct (m !! n), (rb_map R1 !! n); try done. simpl in K. by injection K as _ -> _ _ _. }
    destruct (ru_action u); [by apply (C52_insert ops _ _ _ _ Hops E1)|by apply (C52_erase ops _ _ _ _ Hops E1)|by apply (C52_erase ops _ _ _ _ Hops E1)].
Qed.
Lemma finish_ok_booked j q q' : booked q -> finish_ok j q = Some q' -> booked q'.
Proof.
  intros [[ops Ho] Hr] (R & E & [= <-])%obind_some. destruct (rib_apply_route _ _ _ _ _ Ho E) as [H1 H2]. split; [done|]. simpl. intros n f o.
  rewrite succeeded_app. change (succeeded [(j, true)]) with [snd j]. rewrite route_after_snoc, H2, Hr. done.
Qed.
Lemma finish_failed_booked j q : booked q -> booked (finish_failed j q).
Proof. intros [H1 H2]. split; [done|]. simpl. intros n f o. by rewrite succeeded_app, app_nil_r. Qed.
Lemma advance_booked fuel q q' : booked q -> advance fuel q = Some q' -> booked q'.
Proof.
  revert q. induction fuel as [|fuel IH]; intros q Hb; simpl; destruct (q_busy q); try (by intros [= <-]); destruct (q_queue q) as [|j rest]; try done; try (by intros [= <-]).
  intros (q1 & E1 & H)%obind_some. assert (Hb1 : booked q1). { apply obind_some in E1 as (c & _ & [= <-]). done. }
  destruct (q_batch q1) as [|b bs]; [|by injection H as <-]. destruct (q_other q1); [|by injection H as <-].
  apply obind_some in H as (q2 & E2 & H). eapply IH; [|exact H]. by eapply finish_ok_booked.
Qed.
Lemma go_booked q q' : booked q -> go q = Some q' -> booked q'.
Proof. apply advance_booked. Qed.
Lemma succeed_booked j q q' : booked q -> succeed j q = Some q' -> booked q'.
Proof. intros Hb (q1 & E & H)%obind_some. eapply go_booked; [|exact H]. by eapply finish_ok_booked. Qed.
Lemma other_done_booked j u q q' : booked q -> other_done j u q = Some q' -> booked q'.
Proof. intros Hb. unfold other_done. destruct (q_other _); [|by intros [= <-]]. by apply succeed_booked. Qed.
Lemma on_response_booked c r q q' : booked q -> on_response c r q = Some q' -> booked q'.
Proof.
  intros Hb. unfold on_response. destruct r; [| |destruct (_ =? _)%N|done].
  - destruct (_ =? _)%N; [|by apply other_done_booked]. destruct (q_batch (set_q_batch _ _)); [|by intros [= <-]]. unfold send_other. simpl.
    destruct (q_other q) eqn:Eo; [by apply succeed_booked|by intros [= <-]].
  - destruct (_ <? _)%N; [by intros [= <-]|done].
  - intros H. eapply go_booked; [|exact H]. by apply finish_failed_booked.
  - by apply other_done_booked.
Qed.
Lemma enqueue_all_booked us q : booked q -> booked (fold_left (fun q (x : name * route) => enqueue (RibUpdate RemoveFace (fst x) (snd x)) q) us q).
Proof. revert q. induction us as [|u us IH]; intros q Hb; simpl; [done|]. by apply IH. Qed.
Lemma step_booked e q q' : booked q -> q_step e q = Some q' -> booked q'.
Proof.
  intros Hb. destruct e as [u|f|i r]; simpl.
  - by apply go_booked.
  - apply go_booked. by apply enqueue_all_booked.
  - destruct (q_out q !! i) as [c|]; [|by intros [= <-]]. by apply on_response_booked.
Qed.
Lemma q_run_snoc l e : q_run (l ++ [e]) = match q_run l with Some q => q_step e q | None => None end.
Proof. unfold q_run. rewrite each_of_app. destruct (each_of q_step l queue_empty); [|done]. simpl. by destruct (q_step e q). Qed.
Lemma run_booked l q : q_run l = Some q -> booked q.
Proof.
  revert q. induction l as [|e l IH] using rev_ind; intros q; [intros [= <-]; split; [by exists []|done]|].
  rewrite q_run_snoc. destruct (q_run l) as [q0|]; [|done]. intros H. eapply step_booked; [|exact H]. by apply IH.
Qed.
