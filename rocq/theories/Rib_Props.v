(** C51-C53: the RIB. *)
From stdpp Require Import gmap.
From Verif Require Import Lib Name_Model Name_Proof Tab_Model Rib_Model Rib_Spec Rib_Tree Rib_Hier Rib_Inv.

Lemma dom_nearest_iff R n p : dom_nearest (rb_map R) n p <-> nearest R n p.
Proof. done. Qed.

(** C51: at any time every entry has a route, its parent is the longest registered proper prefix, and
    its children are the entries whose parent it is, each listed once *)
Theorem C51_hierarchy ops R :
  rib_run ops = Some R ->
  forall n e, rb_map R !! n = Some e ->
    re_routes e <> [] /\
    (forall p, re_parent e = Some p <-> nearest R n p) /\
    NoDup (re_children e) /\
    forall c, c ∈ re_children e <-> registered R c /\ nearest R c n.
Proof.
  intros H%rib_run_inv n e He. split; [by apply (ri_routes R H n e)|]. split.
  { intros p. rewrite (h_parent _ (ri_hier R H) n e He). rewrite find_parent_some. by apply dom_nearest_iff. }
  split; [by eapply h_nodup; [apply ri_hier|]|]. intros c. rewrite (h_children _ (ri_hier R H) n e c He), find_parent_some. done.
Qed.
Print Assumptions C51_hierarchy.

(** C51: an entry is there just as long as it has routes *)
Theorem C51_present ops R n : rib_run ops = Some R -> registered R n <-> routes_at R n <> [].
Proof.
  intros H%rib_run_inv. unfold registered, routes_at. destruct (rb_map R !! n) as [e|] eqn:E.
  - pose proof (ri_routes R H n e E) as [Hr _]. split; [done|by eexists].
  - split; [by intros [? ?]|done].
Qed.
Print Assumptions C51_present.

(** C51: no insertion or removal trips an assertion, whatever came before; recording inherited
    routes does just if one of their prefixes is not registered *)
Theorem C51_defined ops R :
  rib_run ops = Some R ->
  (forall n r, is_Some (rib_insert n r R)) /\ (forall n r, is_Some (rib_erase n r R)) /\
  (forall l, is_Some (modify_inherited l (rb_map R)) <-> forall add n r, (add, n, r) ∈ l -> registered R n).
Proof.
  intros H%rib_run_inv. split; [|split].
  - intros n r. destruct (rib_insert_ok n r R (ri_hier R H)) as (R' & E & _). by eexists.
  - intros n r. destruct (find_route r (routes_at R n)) as [old|] eqn:Ef; [|rewrite rib_erase_none by done; by eexists].
    unfold routes_at in Ef. destruct (rb_map R !! n) as [e|] eqn:En; [|done].
    destruct (rib_erase_ok n r R e old (ri_hier R H) En Ef) as (R' & E & _). by eexists.
  - intros l. split; [|apply modify_inherited_ok]. intros [m Hm] add n r Hi. by eapply modify_inherited_some.
Qed.
Print Assumptions C51_defined.

(** C52: a route is replaced or added, and nothing else changes *)
Theorem C52_insert ops R n r R' :
  rib_run ops = Some R -> rib_insert n r R = Some R' ->
  (forall n' f o, route_at R' n' f o =
     if bool_decide (n' = n /\ f = r_face r /\ o = r_origin r) then Some r else route_at R n' f o) /\
  (forall n', inherited_at R' n' = inherited_at R n') /\
  rb_n R' = (match route_at R n (r_face r) (r_origin r) with None => (rb_n R + 1) mod 2 ^ 64 | Some _ => rb_n R end)%N.
Proof.
  intros H%rib_run_inv E. destruct (rib_insert_ok n r R (ri_hier R H)) as (R1 & E1 & Hh & Hx & (e' & He' & Hs & Hf) & Hn & Hnext).
  rewrite E in E1. injection E1 as <-. injection Hs as _ Hr _ Hi.
  assert (Hrn : routes_at R' n = put_route r (routes_at R n)) by (unfold routes_at at 1; by rewrite He').
  assert (Hrx : forall x, x <> n -> routes_at R' x = routes_at R x).
  { intros x Hne. specialize (Hx x Hne). unfold routes_at. destruct (rb_map R' !! x), (rb_map R !! x); simpl in *; try done. by injection Hx as _ -> _ _. }
  split; [|split].
  - intros n' f o. destruct (decide (n' = n)) as [->|Hne].
    2:{ rewrite bool_decide_false by naive_solver. unfold route_at. by rewrite Hrx. }
    unfold route_at. rewrite Hrn. unfold put_route. destruct (find_route r (routes_at R n)) as [old|] eqn:Ef.
    + destruct (remove_first_split _ _ _ Ef) as (l1 & l2 & -> & _ & -> & Hk & Hl1). rewrite !find_app. simpl.
      rewrite same_route_key in Hk. injection Hk as Hk1 Hk2. case_bool_decide as Hb.
      * destruct Hb as (_ & -> & ->). rewrite !N.eqb_refl. simpl.
        replace (List.find _ l1) with (@None route); [done|]. symmetry.
        induction l1 as [|x l1 IH]; [done|]. apply Forall_cons in Hl1 as [Hx1 Hl1]. simpl. unfold same_route in Hx1. by rewrite Hx1, IH.
      * rewrite Hk1, Hk2. destruct ((r_face r =? f)%N && (r_origin r =? o)%N) eqn:Eb; [|done].
        apply andb_true_iff in Eb as [Eb1%N.eqb_eq Eb2%N.eqb_eq]. destruct Hb. by subst.
    + rewrite find_app. simpl. case_bool_decide as Hb.
      * destruct Hb as (_ & -> & ->). rewrite !N.eqb_refl. simpl. unfold find_route, same_route in Ef. by rewrite Ef.
      * destruct ((r_face r =? f)%N && (r_origin r =? o)%N) eqn:Eb; [|by destruct (List.find _ _)].
        apply andb_true_iff in Eb as [Eb1%N.eqb_eq Eb2%N.eqb_eq]. destruct Hb. by subst.
  - intros n'. unfold inherited_at. destruct (decide (n' = n)) as [->|Hne].
    + rewrite He', Hi. by destruct (rb_map R !! n).
    + specialize (Hx n' Hne). destruct (rb_map R' !! n'), (rb_map R !! n'); simpl in *; try done. by injection Hx as _ _ _ ->.
  - rewrite Hn. done.
Qed.
Print Assumptions C52_insert.

Lemma drop_find r l old f o :
  NoDup (map key l) -> find_route r l = Some old ->
  List.find (by_key f o) (drop_route r l) = if bool_decide (f = r_face r /\ o = r_origin r) then None else List.find (by_key f o) l.
Proof.
  intros Hnd Ef. pose proof (find_route_some _ _ _ Ef) as [_ Hk]. destruct (drop_route_split _ _ _ Ef) as (l1 & l2 & -> & ->).
  rewrite !find_app. simpl. rewrite map_app in Hnd. simpl in Hnd. apply NoDup_app in Hnd as (J1 & J2 & [J3 J4]%NoDup_cons).
  assert (Hno : forall l, key old ∉ map key l -> List.find (by_key (r_face r) (r_origin r)) l = None).
  { intros l Hl. destruct (List.find _ l) as [x|] eqn:E; [|done]. apply find_some_in in E as [Hx Hp]. apply by_key_eq in Hp. destruct Hl.
    apply elem_of_list_fmap. exists x. split; [|done]. rewrite Hp, Hk. done. }
  case_bool_decide as Hb.
  - destruct Hb as [-> ->]. rewrite !Hno; [done|done|]. intros K. by eapply J2; [exact K|left].
  - destruct (by_key f o old) eqn:Eb; [|done]. apply by_key_eq in Eb. rewrite Hk in Eb. injection Eb as E1 E2. destruct Hb. by subst.
Qed.
(** C52: only the route with the same face and origin is removed; the inherited routes of an entry
    go with the entry *)
Theorem C52_erase ops R n r R' :
  rib_run ops = Some R -> rib_erase n r R = Some R' ->
  (forall n' f o, route_at R' n' f o =
     if bool_decide (n' = n /\ f = r_face r /\ o = r_origin r) then None else route_at R n' f o) /\
  (forall n', inherited_at R' n' = if bool_decide (routes_at R' n' = []) then [] else inherited_at R n') /\
  rb_n R' = (match route_at R n (r_face r) (r_origin r) with Some _ => (rb_n R + (2 ^ 64 - 1)) mod 2 ^ 64 | None => rb_n R end)%N.
Proof.
  intros Hrun E. pose proof (rib_run_inv _ _ Hrun) as H. pose proof (rib_erase_inv _ _ _ _ H E) as H'.
  assert (Hempty : forall n', routes_at R' n' = [] -> inherited_at R' n' = []).
  { intros n'. unfold routes_at, inherited_at. destruct (rb_map R' !! n') as [e|] eqn:En; [|done]. by apply (ri_routes R' H' n' e) in En as [? _]. }
  destruct (find_route r (routes_at R n)) as [old|] eqn:Ef.
  2:{ rewrite rib_erase_none in E by done. injection E as <-. change (route_at R n (r_face r) (r_origin r) = None) in Ef. rewrite Ef.
      split; [|split; [|done]].
      - intros n' f o. case_bool_decide as Hb; [|done]. by destruct Hb as (-> & -> & ->).
      - intros n'. case_bool_decide; [by apply Hempty|done]. }
  pose proof Ef as Ef0. unfold routes_at in Ef. destruct (rb_map R !! n) as [e|] eqn:En; [|done].
  destruct (rib_erase_ok n r R e old (ri_hier R H) En Ef) as (R1 & E1 & Hh & Hx & Hs & Hf & Hn & Hnext).
  rewrite E in E1. injection E1 as <-.
  assert (Hrn : routes_at R' n = drop_route r (routes_at R n)).
  { unfold routes_at at 2. rewrite En. unfold routes_at. clear -Hs. case_bool_decide as Hb.
    - rewrite Hb. destruct (rb_map R' !! n); [done|done].
    - destruct (rb_map R' !! n); [|done]. simpl in Hs. unfold strip in Hs. by injection Hs as _ -> _ _. }
  assert (Hrx : forall x, x <> n -> routes_at R' x = routes_at R x).
  { intros x Hne. specialize (Hx x Hne). unfold routes_at. destruct (rb_map R' !! x), (rb_map R !! x); simpl in *; try done. by injection Hx as _ -> _ _. }
  split; [|split].
  - intros n' f o. destruct (decide (n' = n)) as [->|Hne].
    2:{ rewrite bool_decide_false by naive_solver. unfold route_at. by rewrite Hrx. }
    unfold route_at. rewrite Hrn. change (fun r0 => (r_face r0 =? f)%N && (r_origin r0 =? o)%N) with (by_key f o).
    rewrite (drop_find r (routes_at R n) old) by (first [done | unfold routes_at; rewrite En; by apply (ri_routes R H n e)]).
    repeat case_bool_decide; naive_solver.
  - intros n'. destruct (decide (routes_at R' n' = [])) as [Hb|Hb]; [rewrite bool_decide_true by done; by apply Hempty|].
    rewrite bool_decide_false by done. unfold inherited_at. destruct (decide (n' = n)) as [->|Hne].
    + rewrite En. unfold routes_at in Hrn, Hb. rewrite En in Hrn. clear -Hs Hrn Hb. revert Hs. case_bool_decide as Hd; intros Hs.
      * rewrite Hd in Hrn. done.
      * destruct (rb_map R' !! n); [|done]. simpl in Hs. unfold strip in Hs. by injection Hs as _ _ _ ->.
    + specialize (Hx n' Hne). destruct (rb_map R' !! n'), (rb_map R !! n'); simpl in *; try done. by injection Hx as _ _ _ ->.
  - rewrite Hn. change (route_at R n (r_face r) (r_origin r) = Some old) in Ef0. by rewrite Ef0.
Qed.
Print Assumptions C52_erase.

(** C52: one route per prefix, face and origin *)
Theorem C52_unique ops R n : rib_run ops = Some R -> NoDup (map (fun r => (r_face r, r_origin r)) (routes_at R n)).
Proof.
  intros H%rib_run_inv. unfold routes_at. destruct (rb_map R !! n) as [e|] eqn:E; [|constructor]. by apply (ri_routes R H n e).
Qed.
Print Assumptions C52_unique.

(** C52: the size is the number of routes *)
Theorem C52_size ops R : rib_run ops = Some R -> rb_n R = (N.of_nat (length (all_routes R)) mod 2 ^ 64)%N.
Proof. intros H%rib_run_inv. rewrite count_all. apply (ri_n R H). Qed.
Print Assumptions C52_size.

Lemma routes_of_id_in id m n r : (n, r) ∈ routes_of_id id m <-> exists e, m !! n = Some e /\ re_id e = id /\ r ∈ re_routes e.
Proof.
  unfold routes_of_id. etransitivity; [apply elem_of_list_In|]. etransitivity; [apply in_concat|]. split.
  - intros (l & Hl & Hr). apply in_map_iff in Hl as ([n' e] & <- & Hi). simpl in Hr. destruct (N.eqb_spec (re_id e) id) as [Hid|]; [|done].
    apply in_map_iff in Hr as (r' & [= -> ->] & Hr). apply elem_of_list_In, elem_of_map_to_list in Hi. exists e. split; [done|]. split; [done|]. by apply elem_of_list_In.
  - intros (e & He & Hid & Hr). exists (map (pair n) (re_routes e)). split.
    + apply in_map_iff. exists (n, e). split; [simpl; by rewrite Hid, N.eqb_refl|]. by apply elem_of_list_In, elem_of_map_to_list.
    + apply in_map_iff. exists r. split; [done|]. by apply elem_of_list_In.
Qed.
(** C52: when a face goes away just the routes on it are removed, wherever they are *)
Theorem C52_faces ops R f n r :
  rib_run ops = Some R -> (n, r) ∈ remove_face_updates f R <-> r ∈ routes_at R n /\ r_face r = f.
Proof.
  intros H%rib_run_inv. unfold remove_face_updates. etransitivity; [apply elem_of_list_In|]. etransitivity; [apply in_concat|]. split.
  - intros (l & Hl & Hr). apply in_map_iff in Hl as ([f' id] & <- & Hi). simpl in Hr. destruct (N.eqb_spec f' f) as [->|]; [|done].
    apply filter_In in Hr as [Hr Hf]. simpl in Hf. apply N.eqb_eq in Hf. apply elem_of_list_In, routes_of_id_in in Hr as (e & He & _ & Hr).
    unfold routes_at. by rewrite He.
  - unfold routes_at. destruct (rb_map R !! n) as [e|] eqn:E; [|by intros [K%elem_of_nil _]]. intros [Hr <-].
    eexists. split; [apply in_map_iff; exists (r_face r, re_id e); split; [done|apply elem_of_list_In; by apply (ri_faces R H n e)]|].
    simpl. rewrite N.eqb_refl. apply filter_In. split; [|simpl; apply N.eqb_refl]. apply elem_of_list_In, routes_of_id_in. by exists e.
Qed.
Print Assumptions C52_faces.

(** [n/i] for i = 0, 1, ...: examples *)
Definition nm (l : list N) : name := map (fun c => (8%N, [c])) l.
Definition rt (f o c fl : N) : route := Route f o c fl None.
Definition ex_ops : list rib_op :=
  [OInsert (nm [1]%N) (rt 1 0 10 1); OInsert (nm [1; 2; 3]%N) (rt 2 0 5 0); OInsert (nm [1; 2]%N) (rt 1 1 7 3);
   OInsert (nm [1; 2]%N) (rt 1 1 8 2); OInsert (nm [1; 2]%N) (rt 1 2 8 0); OErase (nm [1]%N) (rt 1 0 0 0);
   OInherit [(true, nm [1; 2; 3]%N, rt 1 1 8 0)]].
Definition summary (R : rib) (n : name) : option (list route * N * option name * list name * list N) :=
  option_map (fun e => (re_routes e, re_ncap e, re_parent e, re_children e, map r_face (re_inherited e))) (rb_map R !! n).
Example C51_ex :
  option_map (fun R => (summary R (nm [1]%N), summary R (nm [1; 2]%N), summary R (nm [1; 2; 3]%N), rb_n R)) (rib_run ex_ops) =
  Some (None, Some ([rt 1 1 8 2; rt 1 2 8 0], 1%N, None, [nm [1; 2; 3]%N], []), Some ([rt 2 0 5 0], 0%N, Some (nm [1; 2]%N), [], [1%N]), 3%N).
Proof. vm_compute. reflexivity. Qed.

(** C52, what does not hold: a face removal may list a route more than once (two routes on one face at a prefix) *)
Theorem C52_faces_once_refuted :
  exists ops R f, rib_run ops = Some R /\ ~ NoDup (remove_face_updates f R).
Proof.
  set (ops := [OInsert (nm [1]%N) (rt 1 0 10 0); OInsert (nm [1]%N) (rt 1 1 10 0)]).
  set (a := (nm [1]%N, rt 1 0 10 0)). set (b := (nm [1]%N, rt 1 1 10 0)).
  assert (E : option_map (remove_face_updates 1) (rib_run ops) = Some [a; b; a; b]) by (vm_compute; reflexivity).
  destruct (rib_run ops) as [R|] eqn:ER; [|done]. exists ops, R, 1%N. split; [done|]. injection E as ->.
  intros [Hnd _]%NoDup_cons. apply Hnd. set_solver.
Qed.
Print Assumptions C52_faces_once_refuted.

(** ** Capture *)
Definition ncaps (l : list route) : N := N.of_nat (length (List.filter rib_capture l)).
Definition caps (R : rib) : Prop := forall n e, rb_map R !! n = Some e -> re_ncap e = (ncaps (re_routes e) mod U64)%N.
Lemma caps_put r l :
  (forall old, find_route r l = Some old -> rib_capture old = rib_capture r) ->
  (ncaps (put_route r l) mod U64 = new_ncap r l (ncaps l mod U64))%N.
Proof.
  intros Hs. unfold put_route, new_ncap. destruct (find_route r l) as [old|] eqn:Ef.
  - specialize (Hs old eq_refl). destruct (remove_first_split _ _ _ Ef) as (l1 & l2 & -> & _ & -> & _). unfold ncaps.
    rewrite !List.filter_app. simpl. rewrite Hs. by destruct (rib_capture r); rewrite !app_length.
  - unfold ncaps. rewrite List.filter_app, app_length. simpl. destruct (rib_capture r); simpl.
    + rewrite inc64_mod. f_equal. lia.
    + f_equal. lia.
Qed.
Lemma caps_step o R R' : rib_inv R -> caps R -> steady o R -> rib_step o R = Some R' -> caps R'.
Proof.
  intros H Hc Hst. destruct o as [n r|n r|l]; simpl; intros E.
  - destruct (rib_insert_ok n r R (ri_hier R H)) as (R1 & E1 & Hh & Hx & (e' & He' & Hs & _) & _).
    rewrite E in E1. injection E1 as <-. intros x ex Hex. destruct (decide (x = n)) as [->|Hne].
    + rewrite He' in Hex. injection Hex as <-. injection Hs as _ Hr Hn _. rewrite Hr, Hn. simpl in Hst.
      change (route_at R n (r_face r) (r_origin r)) with (find_route r (routes_at R n)) in Hst. rewrite caps_put by done.
      unfold routes_at. destruct (rb_map R !! n) as [e|] eqn:En; [|done]. by rewrite (Hc n e En).
    + destruct (strip_lookup _ _ _ _ (Hx x Hne) Hex) as (e & He & Hse). injection Hse as _ -> -> _. by apply (Hc x).
  - destruct (find_route r (routes_at R n)) as [old|] eqn:Ef; [|rewrite rib_erase_none in E by done; by injection E as <-].
    unfold routes_at in Ef. destruct (rb_map R !! n) as [e|] eqn:En; [|done].
    destruct (rib_erase_ok n r R e old (ri_hier R H) En Ef) as (R1 & E1 & Hh & Hx & Hs & _).
    rewrite E in E1. injection E1 as <-. intros x ex Hex. destruct (decide (x = n)) as [->|Hne].
    + rewrite Hex in Hs. revert Hs. case_bool_decide as Hb; [done|]. simpl. unfold strip. intros [= _ -> -> _].
      destruct (drop_route_split _ _ _ Ef) as (l1 & l2 & El & Ed). rewrite Ed, (Hc n e En), El. unfold ncaps. rewrite !List.filter_app. simpl.
      destruct (rib_capture old); [|done]. rewrite !app_length. simpl. rewrite <-(dec64_mod (N.of_nat (length (List.filter rib_capture l1) + length (List.filter rib_capture l2)))). do 2 f_equal. lia.
    + destruct (strip_lookup _ _ _ _ (Hx x Hne) Hex) as (e0 & He & Hse). injection Hse as _ -> -> _. by apply (Hc x).
  - destruct (modify_inherited l (rb_map R)) as [m|] eqn:Em; [|done]. simpl in E. injection E as <-. intros n e He. simpl in He.
    pose proof (modify_inherited_frame _ _ _ Em n) as Hx. rewrite He in Hx. destruct (rb_map R !! n) as [e0|] eqn:E0; [|done].
    simpl in Hx. injection Hx as _ -> -> _ _. by apply (Hc n).
Qed.

(** C53: as long as no re-registration changes the capture flag of a route, an entry captures just if
    one of its routes does.  Missing: re-registrations that change it *)
Theorem C53_capture_partial ops R n e :
  rib_run ops = Some R -> steady_run ops -> rb_map R !! n = Some e -> (N.of_nat (length (re_routes e)) < 2 ^ 64)%N ->
  has_capture e = true <-> exists r, r ∈ routes_at R n /\ rib_capture r = true.
Proof.
  intros Hrun Hst He Hlen.
  assert (Hc : caps R).
  { clear He Hlen. revert R Hrun Hst. induction ops as [|o ops IH] using rev_ind; intros R Hrun Hst.
    - injection Hrun as <-. intros x ex. simpl. by rewrite lookup_empty.
    - unfold rib_run in Hrun. rewrite each_of_app in Hrun. change (each_of rib_step ops rib_empty) with (rib_run ops) in Hrun.
      destruct (rib_run ops) as [R0|] eqn:E0; [|done]. simpl in Hrun. destruct (rib_step o R0) as [R1|] eqn:E1; [|done]. injection Hrun as <-.
      eapply caps_step; [by eapply rib_run_inv| | |done].
      + apply IH; [done|]. intros l1 o1 l2 R2 El. eapply (Hst l1 o1 (l2 ++ [o])). by rewrite El, <-app_assoc.
      + by eapply (Hst ops o []). }
  unfold has_capture, routes_at. rewrite He, (Hc n e He). rewrite N.mod_small.
  2:{ unfold ncaps. eapply N.le_lt_trans; [|exact Hlen]. clear. induction (re_routes e) as [|x l IH]; simpl; [done|]. destruct (rib_capture x); simpl; lia. }
  rewrite N.ltb_lt. unfold ncaps. split.
  - intros Hl. destruct (List.filter rib_capture (re_routes e)) as [|x l] eqn:El; [done|].
    assert (In x (List.filter rib_capture (re_routes e))) as K by (rewrite El; by left). apply filter_In in K as [K1 K2].
    exists x. split; [by apply elem_of_list_In|done].
  - intros (x & Hx & Hcx). assert (In x (List.filter rib_capture (re_routes e))) as K by (apply filter_In; split; [by apply elem_of_list_In|done]).
    destruct (List.filter rib_capture (re_routes e)); [done|]. simpl. lia.
Qed.
Print Assumptions C53_capture_partial.
Example C53_ex :
  exists R e, rib_run [OInsert (nm [1]%N) (rt 1 0 10 2); OInsert (nm [1]%N) (rt 2 0 10 0); OInsert (nm [1]%N) (rt 1 0 5 3)] = Some R /\
    rb_map R !! nm [1]%N = Some e /\ has_capture e = true.
Proof. eexists _, _. split; [reflexivity|]. split; [vm_compute; reflexivity|]. vm_compute. reflexivity. Qed.

(** C53, what does not hold: re-registering a route with the capture flag leaves the entry without capture, and
    re-registering it without the flag leaves it with capture (Rib::insert overwrites the route but not the count) *)
Theorem C53_capture_refuted :
  (exists ops R n e, rib_run ops = Some R /\ rb_map R !! n = Some e /\ Forall (fun r => rib_capture r = true) (re_routes e) /\ has_capture e = false) /\
  (exists ops R n e, rib_run ops = Some R /\ rb_map R !! n = Some e /\ Forall (fun r => rib_capture r = false) (re_routes e) /\ has_capture e = true).
Proof.
  split.
  - exists [OInsert (nm [1]%N) (rt 1 0 10 0); OInsert (nm [1]%N) (rt 1 0 10 2)]. eexists _, (nm [1]%N), _. split; [reflexivity|].
    split; [vm_compute; reflexivity|]. split; [by repeat constructor|reflexivity].
  - exists [OInsert (nm [1]%N) (rt 1 0 10 2); OInsert (nm [1]%N) (rt 1 0 10 0)]. eexists _, (nm [1]%N), _. split; [reflexivity|].
    split; [vm_compute; reflexivity|]. split; [by repeat constructor|reflexivity].
Qed.
Print Assumptions C53_capture_refuted.
