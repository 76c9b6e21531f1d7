(** C54: the FIB follows the RIB. *)
From stdpp Require Import gmap.
From Verif Require Import Lib Name_Model Name_Proof Tab_Model Rib_Model Rib_Spec RibFib_Model RibFib_Spec Rib_Tree Rib_Hier Rib_Inv Rib_Props RibFib_Look RibFib_Anc RibFib_Trav RibFib_Inv RibFib_Upd RibFib_Run.

(** C54: after registrations, unregistrations and face events the FIB has a nexthop for a registered
    prefix on every live face on which the prefix has a route or inherits one, with the cost of that
    route, and no other nexthop.  Missing: the updates that [safe_run] leaves out *)
Theorem C54_exact_partial l S :
  sys_run l = Some S -> safe_run l ->
  forall n f, sy_fib S n f = if sy_dead S f then None else wanted (routes_at (sy_rib S)) n f.
Proof.
  intros E Hs n f. destruct (safe_run_ok l Hs) as (S' & E' & Ht). rewrite E in E'. injection E' as <-.
  rewrite (ta_fib S Ht). destruct (sy_dead S f); [done|]. apply want_wanted, Ht.
Qed.
Print Assumptions C54_exact_partial.

(** C54: such updates never end in undefined behaviour *)
Theorem C54_defined_partial l : safe_run l -> exists S, sys_run l = Some S.
Proof. intros (S & E & _)%safe_run_ok. by exists S. Qed.
Print Assumptions C54_defined_partial.

(** *** What an update does to the RIB *)
Lemma fold_face {A} (g : upd -> A -> upd) l s : (forall s x, u_face (g s x) = u_face s) -> u_face (fold_left g l s) = u_face s.
Proof. intros H. revert s. induction l as [|x l IH]; intros s; simpl; [done|]. by rewrite IH. Qed.
Lemma each_face {A} (g : A -> upd -> option upd) l s s' : (forall x s s', g x s = Some s' -> u_face s' = u_face s) -> each_of g l s = Some s' -> u_face s' = u_face s.
Proof.
  intros H. revert s. induction l as [|x l IH]; intros s; simpl; [by intros [= <-]|]. destruct (g x s) as [s1|] eqn:E; [|done]. intros K. rewrite (IH _ K). by eapply H.
Qed.
Lemma inherit_face a n r s : u_face (inherit a n r s) = u_face s. Proof. done. Qed.
Lemma traverse_face fuel m add rem n s s' : traverse fuel m add rem n s = Some s' -> u_face s' = u_face s.
Proof.
  revert add rem n s s'. induction fuel as [|fuel IH]; intros add rem n s s'; simpl; [done|]. destruct (m !! n) as [e|]; [|done]. destruct (has_capture e); [by intros [= <-]|].
  intros K. erewrite (each_face _ _ _ _ _ K). Unshelve. 2:{ intros x s0 s1 K1. by eapply IH. }
  rewrite fold_face; [|intros s0 x; destruct (has_face _ _); [done|by rewrite u_face_add]]. apply fold_face. intros s0 x. destruct (has_inherited _ _); [by rewrite u_face_add|done].
Qed.
Lemma modify_face m l add rem s s' : modify_children m l add rem s = Some s' -> u_face s' = u_face s.
Proof. apply each_face. intros x s0 s1. apply traverse_face. Qed.
Lemma obind_some {A B} (o : option A) (g : A -> option B) y : obind o g = Some y -> exists x, o = Some x /\ g x = Some y.
Proof. destruct o as [x|]; [|done]. by exists x. Qed.
Lemma remove_inh_face n e l s : u_face (remove_inherited_routes n e l s) = u_face s.
Proof. apply fold_face. intros s0 x. destruct (has_inherited _ _); [by rewrite u_face_add|done]. Qed.
Lemma add_inh_face n e l s : u_face (add_inherited_routes n e l s) = u_face s.
Proof. apply fold_face. intros s0 x. destruct (has_face _ _); [done|by rewrite u_face_add]. Qed.
Lemma add_but_face n l r s : u_face (add_inherited_but n l r s) = u_face s.
Proof. apply fold_face. intros s0 x. destruct (_ =? _)%N; [done|by rewrite u_face_add]. Qed.
Lemma new_route_face m n e r cap s s' : for_new_route m n e r cap s = Some s' -> u_face s' = u_face s.
Proof.
  unfold for_new_route. intros (al & _ & (s2 & E2 & [= <-])%obind_some)%obind_some. apply modify_face in E2.
  assert (u_face (if cap then remove_inherited_routes n e al s else s) = u_face s) as E1 by (destruct cap; [apply remove_inh_face|done]). rewrite E1 in E2.
  destruct (match lowest_on _ _ with Some _ => _ | None => _ end); by rewrite ?u_face_add.
Qed.
Lemma updated_route_face m n e r old s s' : for_updated_route m n e r old s = Some s' -> u_face s' = u_face s.
Proof.
  unfold for_updated_route. destruct (_ && negb _); [by intros [= <-]|]. intros (s1 & E1 & H)%obind_some.
  assert (u_face s1 = u_face s) as H1.
  { destruct (negb (r_cost r =? r_cost old)%N); [|by injection E1 as <-]. apply obind_some in E1 as (low & _ & E1). destruct (_ <=? _)%N; [injection E1 as <-; apply u_face_add|].
    destruct (_ <? _)%N; [|by injection E1 as <-]. apply obind_some in E1 as (p & _ & E1). injection E1 as <-. apply u_face_add. }
  rewrite <-H1. clear E1 H1. destruct (_ && child_inherit r); [by eapply modify_face|].
  apply obind_some in H as (s2 & E2 & H).
  assert (u_face s2 = u_face s1) as H2.
  { destruct (negb (child_inherit old) && child_inherit r).
    - destruct (match lowest_inherit_on _ _ with Some _ => _ | None => _ end); [by eapply modify_face|by injection E2 as <-].
    - destruct (child_inherit old && negb (child_inherit r)); [|by injection E2 as <-]. apply obind_some in E2 as (add & _ & E2). by eapply modify_face. }
  rewrite <-H2. clear E2 H2. destruct (negb (rib_capture old) && rib_capture r).
  - apply obind_some in H as (al & _ & H). apply modify_face in H. by rewrite remove_inh_face in H.
  - destruct (rib_capture old && negb (rib_capture r)); [|by injection H as <-]. apply obind_some in H as (al & _ & H). apply modify_face in H. by rewrite add_inh_face in H.
Qed.
Lemma erased_route_face m n e r off s s' : for_erased_route m n e r off s = Some s' -> u_face s' = u_face s.
Proof.
  unfold for_erased_route. intros (al & _ & (s1 & E1 & [= <-])%obind_some)%obind_some.
  assert (u_face s1 = u_face s) as H1.
  { destruct (child_inherit r), (rib_capture r); [apply modify_face in E1|apply modify_face in E1|apply modify_face in E1|injection E1 as <-]; rewrite ?add_inh_face, ?u_face_add in *; done. }
  destruct (negb (has_capture e) && _); [|done]. destruct (rs_find r al); [|done]. by rewrite u_face_add.
Qed.
Lemma compute_face m u c : compute m u = Some c -> u_face c = r_face (ru_route u).
Proof.
  assert (Hun : forall n r s c, compute_unregister m n r s = Some c -> u_face c = u_face s).
  { intros n r s c'. unfold compute_unregister. destruct (m !! n) as [e|]; [|by intros [= <-]]. destruct (find_route _ _) as [old|]; [|by intros [= <-]].
    intros (s1 & E1 & (s2 & E2 & [= <-])%obind_some)%obind_some. apply erased_route_face in E1. rewrite <-E1.
    assert (u_face s2 = u_face s1) as <-. { destruct (second_on _ _); [by eapply new_route_face|by injection E2 as <-]. }
    destruct (length _ =? 1)%nat; [|done]. unfold for_erased_entry. apply fold_face. intros; apply u_face_add. }
  unfold compute. destruct (ru_action u).
  - unfold compute_register. destruct (m !! _) as [e|].
    + destruct (find_route _ _); [apply updated_route_face|apply new_route_face].
    + unfold for_new_entry. intros (al & _ & H)%obind_some. destruct (child_inherit _), (rib_capture _); try (apply modify_face in H); rewrite ?add_but_face, ?u_face_add in H; try done.
      injection H as <-. by rewrite add_but_face, u_face_add.
  - intros H. by apply Hun in H.
  - intros (s' & H & [= <-])%obind_some. by apply Hun in H.
Qed.
Lemma sys_rib_run l S : sys_run l = Some S -> exists ops, rib_run ops = Some (sy_rib S).
Proof.
  revert S. induction l as [|e l IH] using rev_ind; intros S; [intros [= <-]; by exists []|]. rewrite run_snoc. destruct (sys_run l) as [T|] eqn:El; [|done].
  destruct (IH T eq_refl) as [ops Hops]. destruct e as [u|f|f]; [|intros [= <-]; by exists ops|intros [= <-]; by exists ops].
  simpl. intros (c & Ec & H)%obind_some. destruct (_ && _); [injection H as <-; by exists ops|]. apply obind_some in H as (R & ER & [= <-]). simpl.
  unfold rib_apply in ER. apply obind_some in ER as (R1 & E1 & (m & Em & [= <-])%obind_some).
  set (o := match ru_action u with Register => OInsert (ru_name u) (ru_route u) | _ => OErase (ru_name u) (ru_route u) end).
  exists (ops ++ [o; OInherit (u_inh c)]). unfold rib_run in *. rewrite each_of_app, Hops. simpl.
  assert (rib_step o (sy_rib T) = Some R1) as -> by (unfold o; by destruct (ru_action u)). simpl. by rewrite Em.
Qed.

(** C54: an update for a live face changes just the route it names; for a dead face it does that, or
    nothing at all *)
Theorem C54_update l S u S' :
  sys_run l = Some S -> sys_step (EUpdate u) S = Some S' ->
  let r := ru_route u in
  sy_dead S' = sy_dead S /\
  ((forall n f o, route_at (sy_rib S') n f o =
      if bool_decide (n = ru_name u /\ f = r_face r /\ o = r_origin r) then match ru_action u with Register => Some r | _ => None end else route_at (sy_rib S) n f o)
   \/ (S' = S /\ sy_dead S (r_face r) = true)).
Proof.
  intros Hrun Hstep r. destruct (sys_rib_run l S Hrun) as [ops Hops]. simpl in Hstep. apply obind_some in Hstep as (c & Ec & H). rewrite (compute_face _ _ _ Ec) in H.
  destruct (sy_dead S (r_face (ru_route u)) && existsb fu_add (u_batch c)) eqn:Ed.
  { injection H as <-. split; [done|]. right. apply andb_true_iff in Ed as [Ed _]. done. }
  apply obind_some in H as (R & ER & [= <-]). split; [done|]. left. intros n f o. simpl. unfold rib_apply in ER. apply obind_some in ER as (R1 & E1 & (m & Em & [= <-])%obind_some).
  assert (route_at (set_rb_map m R1) n f o = route_at R1 n f o) as ->.
  { unfold route_at, routes_at. simpl. pose proof (modify_inherited_frame _ _ _ Em n) as K. destruct (m !! n), (rb_map R1 !! n); try done. simpl in K. by injection K as _ -> _ _ _. }
  unfold r. destruct (ru_action u); [by apply (C52_insert ops _ _ _ _ Hops E1)|by apply (C52_erase ops _ _ _ _ Hops E1)|by apply (C52_erase ops _ _ _ _ Hops E1)].
Qed.
Print Assumptions C54_update.

(** ** What does not hold *)
Definition reg (n : list N) (r : route) : rib_event := EUpdate (RibUpdate Register (nm n) r).
Definition unreg (n : list N) (r : route) : rib_event := EUpdate (RibUpdate Unregister (nm n) r).
(** all that can be seen of a prefix on a face: the nexthop, the nexthop that is wanted *)
Definition seen (l : list rib_event) (n : list N) (f : N) : option (bool * option N * option N) :=
  option_map (fun S => (sy_dead S f, sy_fib S (nm n) f, wanted (routes_at (sy_rib S)) (nm n) f)) (sys_run l).
Definition up2 : list rib_event := [EFaceUp 1; EFaceUp 2]%N.
(** a nexthop that is wanted is missing, one that is not wanted is there, one has another cost *)
Theorem C54_missing_refuted : exists l S n f, sys_run l = Some S /\ sy_dead S f = false /\ sy_fib S n f = None /\ exists c, wanted (routes_at (sy_rib S)) n f = Some c.
Proof.
  (* two origins on a face: unregistering the dearer route removes the nexthop *)
  set (l := (up2 ++ [reg [1] (rt 1 0 10 0); reg [1] (rt 1 1 20 0); unreg [1] (rt 1 1 0 0)])%N).
  assert (E : seen l [1%N] 1 = Some (false, None, Some 10%N)) by (vm_compute; reflexivity).
  unfold seen in E. destruct (sys_run l) as [S|] eqn:ES; [|done]. exists l, S, (nm [1%N]), 1%N. injection E as E1 E2 E3. split; [exact ES|]. split; [exact E1|]. split; [exact E2|]. by exists 10%N.
Qed.
Print Assumptions C54_missing_refuted.
(** the same with one origin per face: a prefix that inherits the face gets a route of its own that
    children do not inherit, then the inherited route goes away *)
Theorem C54_inherited_refuted : exists l S n f, sys_run l = Some S /\ sy_dead S f = false /\ sy_fib S n f = None /\ exists c, wanted (routes_at (sy_rib S)) n f = Some c.
Proof.
  set (l := (up2 ++ [reg [1] (rt 1 0 10 1); reg [1; 2] (rt 2 0 5 0); reg [1; 2] (rt 1 0 7 0); unreg [1] (rt 1 0 0 0)])%N).
  assert (E : seen l [1; 2]%N 1 = Some (false, None, Some 7%N)) by (vm_compute; reflexivity).
  unfold seen in E. destruct (sys_run l) as [S|] eqn:ES; [|done]. exists l, S, (nm [1; 2]%N), 1%N. injection E as E1 E2 E3. split; [exact ES|]. split; [exact E1|]. split; [exact E2|]. by exists 7%N.
Qed.
Print Assumptions C54_inherited_refuted.
(** the last route of a prefix captured: the prefixes below do not get what they now inherit *)
Theorem C54_capture_refuted : exists l S n f, sys_run l = Some S /\ sy_dead S f = false /\ sy_fib S n f = None /\ exists c, wanted (routes_at (sy_rib S)) n f = Some c.
Proof.
  set (l := (up2 ++ [reg [1] (rt 1 0 10 1); reg [1; 2] (rt 2 0 5 2); reg [1; 2; 3] (rt 2 0 5 0); unreg [1; 2] (rt 2 0 0 0)])%N).
  assert (E : seen l [1; 2; 3]%N 1 = Some (false, None, Some 10%N)) by (vm_compute; reflexivity).
  unfold seen in E. destruct (sys_run l) as [S|] eqn:ES; [|done]. exists l, S, (nm [1; 2; 3]%N), 1%N. injection E as E1 E2 E3. split; [exact ES|]. split; [exact E1|]. split; [exact E2|]. by exists 10%N.
Qed.
Print Assumptions C54_capture_refuted.
(** unregistering a route hands the routes of shorter prefixes to the prefixes below, over nearer ones *)
Theorem C54_nearest_refuted : exists l S n f c d, sys_run l = Some S /\ sy_dead S f = false /\ sy_fib S n f = Some c /\ wanted (routes_at (sy_rib S)) n f = Some d /\ c <> d.
Proof.
  set (l := (up2 ++ [reg [1] (rt 1 0 1 1); reg [1; 2] (rt 1 0 2 1); reg [1; 2] (rt 2 0 5 1); reg [1; 2; 3] (rt 2 0 5 0); unreg [1; 2] (rt 2 0 0 0)])%N).
  assert (E : seen l [1; 2; 3]%N 1 = Some (false, Some 1%N, Some 2%N)) by (vm_compute; reflexivity).
  unfold seen in E. destruct (sys_run l) as [S|] eqn:ES; [|done]. exists l, S, (nm [1; 2; 3]%N), 1%N, 1%N, 2%N. injection E as E1 E2 E3. split; [exact ES|]. split; [exact E1|]. split; [exact E2|]. split; [exact E3|]. lia.
Qed.
Print Assumptions C54_nearest_refuted.
(** of two routes of an ancestor on a face the first is inherited, not the cheaper *)
Theorem C54_cheapest_refuted : exists l S n f c d, sys_run l = Some S /\ sy_dead S f = false /\ sy_fib S n f = Some c /\ wanted (routes_at (sy_rib S)) n f = Some d /\ (d < c)%N.
Proof.
  set (l := (up2 ++ [reg [1] (rt 1 0 20 1); reg [1] (rt 1 1 10 1); reg [1; 2] (rt 2 0 5 0)])%N).
  assert (E : seen l [1; 2]%N 1 = Some (false, Some 20%N, Some 10%N)) by (vm_compute; reflexivity).
  unfold seen in E. destruct (sys_run l) as [S|] eqn:ES; [|done]. exists l, S, (nm [1; 2]%N), 1%N, 20%N, 10%N. injection E as E1 E2 E3. split; [exact ES|]. split; [exact E1|]. split; [exact E2|]. split; [exact E3|]. lia.
Qed.
Print Assumptions C54_cheapest_refuted.
(** re-registering with another cost and another flag leaves the old cost below *)
Theorem C54_cost_refuted : exists l S n f c d, sys_run l = Some S /\ sy_dead S f = false /\ sy_fib S n f = Some c /\ wanted (routes_at (sy_rib S)) n f = Some d /\ c <> d.
Proof.
  set (l := (up2 ++ [reg [1] (rt 1 0 10 1); reg [1; 2] (rt 2 0 5 0); reg [1] (rt 1 0 30 5)])%N).
  assert (E : seen l [1; 2]%N 1 = Some (false, Some 10%N, Some 30%N)) by (vm_compute; reflexivity).
  unfold seen in E. destruct (sys_run l) as [S|] eqn:ES; [|done]. exists l, S, (nm [1; 2]%N), 1%N, 10%N, 30%N. injection E as E1 E2 E3. split; [exact ES|]. split; [exact E1|]. split; [exact E2|]. split; [exact E3|]. lia.
Qed.
Print Assumptions C54_cost_refuted.
(** the first route of a prefix that captures removes from the prefixes below the nexthop of a route of
    the prefix itself, when a shorter prefix has a route on the same face *)
Theorem C54_cut_refuted : exists l S n f, sys_run l = Some S /\ sy_dead S f = false /\ sy_fib S n f = None /\ exists c, wanted (routes_at (sy_rib S)) n f = Some c.
Proof.
  set (l := (up2 ++ [EFaceUp 3; reg [1] (rt 1 0 10 1); reg [1; 2] (rt 1 0 5 1); reg [1; 2; 3] (rt 2 0 7 0); reg [1; 2] (rt 3 0 6 2)])%N).
  assert (E : seen l [1; 2; 3]%N 1 = Some (false, None, Some 5%N)) by (vm_compute; reflexivity).
  unfold seen in E. destruct (sys_run l) as [S|] eqn:ES; [|done]. exists l, S, (nm [1; 2; 3]%N), 1%N. injection E as E1 E2 E3. split; [exact ES|]. split; [exact E1|]. split; [exact E2|]. by exists 5%N.
Qed.
Print Assumptions C54_cut_refuted.
(** a route of a prefix that captures stops being one for the children: they get the route of the
    shorter prefix that the capture hides *)
Theorem C54_hidden_refuted : exists l S n f c, sys_run l = Some S /\ sy_dead S f = false /\ sy_fib S n f = Some c /\ wanted (routes_at (sy_rib S)) n f = None.
Proof.
  set (l := (up2 ++ [reg [1] (rt 1 0 10 1); reg [1; 2] (rt 1 0 5 3); reg [1; 2; 3] (rt 2 0 7 0); reg [1; 2] (rt 1 0 5 2)])%N).
  assert (E : seen l [1; 2; 3]%N 1 = Some (false, Some 10%N, None)) by (vm_compute; reflexivity).
  unfold seen in E. destruct (sys_run l) as [S|] eqn:ES; [|done]. exists l, S, (nm [1; 2; 3]%N), 1%N, 10%N. injection E as E1 E2 E3. split; [exact ES|]. split; [exact E1|]. split; [exact E2|exact E3].
Qed.
Print Assumptions C54_hidden_refuted.
(** re-registering the cheapest of two routes on a face at a higher cost, none of them for the
    children: a null pointer is dereferenced *)
Theorem C54_defined_refuted : exists l S e, sys_run l = Some S /\ sys_step e S = None.
Proof.
  set (l := (up2 ++ [reg [1] (rt 1 0 10 0); reg [1] (rt 1 1 20 0)])%N).
  assert (E : option_map (fun S => match sys_step (reg [1%N] (rt 1 0 30 0)) S with None => true | Some _ => false end) (sys_run l) = Some true) by (vm_compute; reflexivity).
  destruct (sys_run l) as [S|] eqn:ES; [|done]. exists l, S, (reg [1%N] (rt 1 0 30 0)). split; [exact ES|]. cbn [option_map] in E. by destruct (sys_step (reg [1%N] (rt 1 0 30 0)) S).
Qed.
Print Assumptions C54_defined_refuted.

(** ** A run that meets the hypotheses *)
Definition ex_events : list rib_event := (
  up2 ++ [reg [1] (rt 1 0 10 1); reg [1; 2] (rt 2 0 5 0); reg [1; 2; 3] (rt 1 0 7 1); reg [1; 2; 3; 4] (rt 2 0 6 0); reg [1] (rt 1 0 8 1);
          unreg [1; 2; 3] (rt 1 0 0 0); EFaceDown 2; EUpdate (RibUpdate RemoveFace (nm [1; 2]) (rt 2 0 0 0))])%N.
Example C54_ex_fib :
  (seen ex_events [1; 2]%N 1, seen ex_events [1; 2; 3; 4]%N 1, seen ex_events [1; 2; 3; 4]%N 2, seen ex_events [1]%N 1) =
  (Some (false, None, None), Some (false, Some 8, Some 8), Some (true, None, Some 6), Some (false, Some 8, Some 8))%N.
Proof. vm_compute. reflexivity. Qed.
(** a check of [safe_run] *)
Definition has_ci (R : rib) (q : name) (g : N) : bool := existsb (fun r => (r_face r =? g)%N && child_inherit r) (routes_at R q).
Definition unregb (R : rib) (n : name) (r : route) : bool :=
  match route_at R n (r_face r) (r_origin r) with
  | Some old =>
      (negb (child_inherit old || rib_capture old) || existsb (fun x => negb (r_face x =? r_face r)%N && rib_capture x) (routes_at R n) ||
       forallb (fun x => (r_face x =? r_face r)%N || negb (child_inherit x) || forallb (fun q => negb (has_ci R q (r_face x))) (proper_prefixes n)) (routes_at R n)) &&
      (negb (rib_capture old) || (1 <? length (routes_at R n))%nat || forallb (fun x => (length x.1 <=? length n)%nat) (map_to_list (rb_map R)))
  | None => true
  end.
Definition safeb (S : rib_sys) (e : rib_event) : bool :=
  match e with
  | EUpdate (RibUpdate Register n r) =>
      (r_flags r <? 4)%N && forallb (fun x => negb (r_face x =? r_face r)%N || (r_origin x =? r_origin r)%N) (routes_at (sy_rib S) n) &&
      (child_inherit r || forallb (fun f => negb (f =? r_face r)%N) (inherited_at (sy_rib S) n)) &&
      (negb (rib_capture r) || captures (routes_at (sy_rib S) n) || forallb (fun x => forallb (fun q => negb (has_ci (sy_rib S) q (r_face x))) (proper_prefixes n)) (routes_at (sy_rib S) n)) &&
      match route_at (sy_rib S) n (r_face r) (r_origin r) with
      | Some old => Bool.eqb (rib_capture old) (rib_capture r) && negb (captures (routes_at (sy_rib S) n) && child_inherit old && negb (child_inherit r))
      | None => true
      end && (N.of_nat (length (routes_at (sy_rib S) n)) <? 2 ^ 64 - 1)%N
  | EUpdate (RibUpdate Unregister n r) => unregb (sy_rib S) n r
  | EUpdate (RibUpdate RemoveFace n r) => unregb (sy_rib S) n r && sy_dead S (r_face r)
  | EFaceUp f => forallb (fun x => negb (r_face (snd x) =? f)%N) (all_routes (sy_rib S))
  | EFaceDown f => true
  end.
Fixpoint safeb_run (l : list rib_event) (S : rib_sys) : bool :=
  match l with [] => true | e :: l' => safeb S e && match sys_step e S with Some S' => safeb_run l' S' | None => false end end.
Lemma has_ci_spec R q g : inherits R q g -> has_ci R q g = true.
Proof. intros (r & Hr & <- & Hc). apply existsb_exists. exists r. split; [by apply elem_of_list_In|]. by rewrite N.eqb_refl, Hc. Qed.
Lemma unregb_spec R n r : unregb R n r = true -> safe_unregister R n r.
Proof.
  unfold unregb. intros H old E. rewrite E in H. apply andb_true_iff in H as [H1 H2]. split.
  - intros Hc Hno g q Hg (x & Hx & <- & Hxc) Hq Hin. assert (child_inherit old || rib_capture old = true) as Hc' by (apply orb_true_iff; tauto). rewrite Hc' in H1. simpl in H1.
    apply orb_true_iff in H1 as [H1|H1].
    { apply existsb_exists in H1 as (y & Hy & [K1 K2]%andb_true_iff). apply negb_true_iff, N.eqb_neq in K1. rewrite (Hno y) in K2; [done|by apply elem_of_list_In|done]. }
    rewrite forallb_forall in H1. specialize (H1 x ltac:(by apply elem_of_list_In)).
    rewrite Hxc, (proj2 (N.eqb_neq _ _) Hg) in H1. simpl in H1. rewrite forallb_forall in H1. specialize (H1 q ltac:(by apply elem_of_list_In, in_proper_prefixes)). by rewrite (has_ci_spec R q _ Hin) in H1.
  - intros Hc Hl. rewrite Hc, Hl in H2. simpl in H2. left. intros d Hd [Hp Hlt]. rewrite forallb_forall in H2.
    destruct (rb_map R !! d) as [e|] eqn:Ed; [|unfold registered in Hd; rewrite Ed in Hd; by destruct Hd].
    specialize (H2 (d, e) ltac:(by apply elem_of_list_In, elem_of_map_to_list)). simpl in H2. apply Nat.leb_le in H2. destruct Hp as [z ->]. rewrite app_length in H2. destruct z; [by rewrite app_nil_r in Hlt|simpl in H2; lia].
Qed.
Lemma safeb_spec S e : safeb S e = true -> safe_event S e.
Proof.
  destruct e as [[[] n r]|f|f]; simpl.
  - rewrite !andb_true_iff, N.ltb_lt, forallb_forall. intros [[[[[H1 H2] H3] H4] H5] H6]. split; [done|]. split; [|split; [|split; [|split]]].
    + intros x Hx E. specialize (H2 x ltac:(by apply elem_of_list_In)). rewrite E, N.eqb_refl in H2. simpl in H2. by apply N.eqb_eq.
    + intros Hc _ Hin. rewrite Hc in H3. simpl in H3. rewrite forallb_forall in H3. specialize (H3 _ (proj1 (elem_of_list_In _ _) Hin)). by rewrite N.eqb_refl in H3.
    + intros Hc Hn x q Hx Hq Hin. rewrite Hc, Hn in H4. simpl in H4. rewrite forallb_forall in H4. specialize (H4 x ltac:(by apply elem_of_list_In)). rewrite forallb_forall in H4.
      specialize (H4 q ltac:(by apply elem_of_list_In, in_proper_prefixes)). by rewrite (has_ci_spec _ q _ Hin) in H4.
    + intros old E. rewrite E in H5. apply andb_true_iff in H5 as [K1 K2]. split; [by apply eqb_prop|]. intros C1 C2 C3. by rewrite C1, C2, C3 in K2.
    + by apply N.ltb_lt.
  - apply unregb_spec.
  - intros [H1 H2]%andb_true_iff. split; [by apply unregb_spec|done].
  - rewrite forallb_forall. intros H n r Hr E. specialize (H (n, r) ltac:(by apply elem_of_list_In, all_routes_in)). simpl in H. by rewrite E, N.eqb_refl in H.
  - done.
Qed.
Lemma safeb_run_spec l : safeb_run l sys_init = true -> safe_run l.
Proof.
  unfold safe_run, sys_run. generalize sys_init. induction l as [|e l IH]; intros S0 H l1 e' l2 S E Hr; [by destruct l1|].
  simpl in H. apply andb_true_iff in H as [H1 H2]. destruct l1 as [|e1 l1]; simpl in *.
  - injection E as <- _. injection Hr as <-. by apply safeb_spec.
  - injection E as <- E. destruct (sys_step e S0) as [S1|]; [|done]. by eapply IH.
Qed.
Example C54_ex : safe_run ex_events.
Proof. apply safeb_run_spec. vm_compute. reflexivity. Qed.
(** one with routes that capture: on a new prefix, on a registered one, with and without child-inherit,
    and their removal *)
Definition ex_capture : list rib_event := (
  up2 ++ [EFaceUp 3; reg [1] (rt 1 0 10 1); reg [1; 2; 3] (rt 2 0 5 0); reg [1; 2] (rt 3 0 5 3)])%N.
Definition ex_capture2 : list rib_event := (ex_capture ++ [reg [1; 2] (rt 2 0 4 2); reg [1; 2; 3] (rt 3 0 1 3); unreg [1; 2] (rt 3 0 0 0)])%N.
Definition ex_capture3 : list rib_event := (ex_capture2 ++ [unreg [1; 2; 3] (rt 3 0 0 0); reg [1; 2] (rt 3 0 6 1); unreg [1; 2] (rt 2 0 0 0)])%N.
Example C54_ex_capture :
  (map (seen (take 5 ex_capture) [1; 2; 3]%N) [1; 3], map (seen ex_capture [1; 2; 3]%N) [1; 3], map (seen ex_capture2 [1; 2; 3]%N) [1; 3], map (seen ex_capture3 [1; 2; 3]%N) [1; 3])%N =
  ([Some (false, Some 10, Some 10); Some (false, None, None)],
   [Some (false, None, None); Some (false, Some 5, Some 5)],
   [Some (false, None, None); Some (false, Some 1, Some 1)],
   [Some (false, Some 10, Some 10); Some (false, Some 6, Some 6)])%N.
Proof. vm_compute. reflexivity. Qed.
Example C54_ex_capture_safe : safe_run ex_capture3.
Proof. apply safeb_run_spec. vm_compute. reflexivity. Qed.
