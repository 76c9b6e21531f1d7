(** Runs of RIB updates and face events. *)
From stdpp Require Import gmap.
From Verif Require Import Lib Name_Model Name_Proof Tab_Model Rib_Model Rib_Spec RibFib_Model RibFib_Spec Rib_Tree Rib_Hier Rib_Inv RibFib_Look RibFib_Anc RibFib_Trav RibFib_Inv RibFib_Upd Rib_Props.

Record tame (S : rib_sys) : Prop := {
  ta_map : tame_map (rb_map (sy_rib S));
  ta_fib : forall n f, sy_fib S n f = if sy_dead S f then None else want (routes_at (sy_rib S)) n f;
}.
Lemma tame_init : tame sys_init.
Proof.
  split; [|done]. simpl. assert (Hno : forall d, rho_of ∅ d = []) by (intros d; unfold rho_of; by rewrite lookup_empty). split.
  - apply hier_empty.
  - intros n e. by rewrite lookup_empty.
  - intros n e. by rewrite lookup_empty.
  - intros n. by rewrite Hno.
  - intros n r. rewrite Hno. intros H. by apply elem_of_nil in H.
  - intros n. rewrite Hno. constructor.
  - intros n. rewrite Hno. constructor.
  - intros d f [e He]. by rewrite lookup_empty in He.
  - intros d f r. unfold own. by rewrite Hno.
Qed.
Lemma want_upd_rho p p' : (forall d, p' d = p d) -> forall n f, want p' n f = want p n f.
Proof. intros H n f. apply want_ext. intros; apply H. Qed.

Lemma finish S u n l c R1 dropped :
  tame S -> good (rb_map (sy_rib S)) n l (r_face (ru_route u)) c ->
  match ru_action u with Register => rib_insert (ru_name u) (ru_route u) (sy_rib S) | _ => rib_erase (ru_name u) (ru_route u) (sy_rib S) end = Some R1 ->
  hier (rb_map R1) ->
  (forall x, x <> n -> strip <$> rb_map R1 !! x = strip <$> rb_map (sy_rib S) !! x) ->
  match l with [] => rb_map R1 !! n = None | _ => exists e', rb_map R1 !! n = Some e' /\ re_routes e' = l /\ re_ncap e' = ncap l /\ forall f, has_inh f e' = inhb (rb_map (sy_rib S)) n f end ->
  (ncap l < U64)%N -> Forall (fun r => (r_flags r < 4)%N) l -> NoDup (map r_face l) -> NoDup (map key l) ->
  (* the updates for a dead face may be left out *)
  dropped = c \/ (dropped = Upd (u_face c) [] (u_other c) (u_inh c) /\ sy_dead S (r_face (ru_route u)) = true) ->
  exists R, rib_apply u (u_inh dropped) (sy_rib S) = Some R /\
    tame (RibSys R (fold_left (fun F x => fib_do (sy_dead S) x F) (u_batch dropped ++ u_other dropped) (sy_fib S)) (sy_dead S)).
Proof.
  intros [Hm Hfib] (add & rem & En & In & He & Hfit & N1 & N2 & N3 & N4) HR1 Hh Hx Hn Hbd Hfl Hfa Hke Hdr.
  assert (Hinh : u_inh dropped = u_inh c) by (by destruct Hdr as [->|[-> _]]).
  destruct He as (Hok & Hface & Hlook & Hilook & Hin).
  assert (Hreg : forall a d r, (a, d, r) ∈ u_inh c -> is_Some (rb_map R1 !! d)).
  { intros a d r Hadr.
    assert (~ forall f, childI (rb_map (sy_rib S)) n add rem In d f = None) as Hex.
    { intros Hall. destruct (Hin d Hall) as (a' & r' & K); [by eauto|]. simpl in K. by apply elem_of_nil in K. }
    destruct (decide (d = n)) as [->|Hd].
    - destruct l as [|x k]; [|destruct Hn as (e' & -> & _); by eexists]. exfalso. apply Hex. intros f. unfold childI. rewrite name_eqb_refl. by apply N4.
    - destruct (rb_map (sy_rib S) !! d) as [e|] eqn:Ed.
      + specialize (Hx d Hd). rewrite Ed in Hx. destruct (rb_map R1 !! d); [by eexists|done].
      + exfalso. apply Hex. intros f. unfold childI. destruct (name_eqb d n) eqn:E; [by apply name_eqb_eq in E|].
        destruct (under _ n d f) eqn:Eu; [|done]. apply under_spec in Eu as (K & _). rewrite Ed in K. by destruct K. }
  destruct (modify_inherited_ok (u_inh c) (rb_map R1) Hreg) as [m' Hm'].
  exists (set_rb_map m' R1). split.
  { unfold rib_apply. rewrite HR1. cbn [obind]. rewrite Hinh, Hm'. done. }
  destruct (assemble (rb_map (sy_rib S)) (rb_map R1) m' n l add rem In c) as [Ht Hr]; try done.
  { intros d f. rewrite Hilook. simpl. apply over_none. }
  split; [exact Ht|]. intros d f. simpl. change (routes_at (set_rb_map m' R1)) with (rho_of m').
  change (routes_at (sy_rib S)) with (rho_of (rb_map (sy_rib S))) in Hfib.
  rewrite (want_upd_rho _ _ Hr).
  assert (Hval : get_or (look c d f) (want (rho_of (rb_map (sy_rib S))) d f) = want (upd_rho n l (rho_of (rb_map (sy_rib S)))) d f).
  { rewrite Hlook. assert (look (Upd (r_face (ru_route u)) [] [] []) d f = None) as -> by (unfold look; simpl; by destruct (_ =? _)%N). rewrite over_none.
    unfold childE. destruct (name_eqb d n) eqn:E; [apply name_eqb_eq in E as ->; apply N1|]. apply name_eqb_neq in E. by apply children_look. }
  assert (Hok' : upd_ok dropped). { destruct Hdr as [->|[-> _]]; [done|]. destruct Hok as [K1 K2 K3 K4]. split; simpl; [intros v Hv; by apply elem_of_nil in Hv|done|constructor|done]. }
  rewrite (apply_upd _ _ _ _ _ Hok'), Hfib. destruct (sy_dead S f) eqn:Ed; [by destruct (look dropped d f)|].
  assert (look dropped d f = look c d f) as ->; [|rewrite <-Hval; by destruct (look c d f)].
  destruct Hdr as [->|[-> Hdead]]; [done|]. unfold look. simpl. rewrite Hface. simpl. destruct (N.eqb_spec f (r_face (ru_route u))) as [->|Hne]; [congruence|done].
Qed.

Lemma has_inh_inhb (m : rmap) n e' : re_inherited e' = match m !! n with Some e => re_inherited e | None => [] end -> forall f, has_inh f e' = inhb m n f.
Proof. intros H f. unfold has_inh, inhb. rewrite H. by destruct (m !! n). Qed.
Lemma put_faces (m : rmap) n e r old : tame_map m -> m !! n = Some e -> find_route r (re_routes e) = Some old -> NoDup (map r_face (put_route r (re_routes e))).
Proof.
  intros Hm He Hf. destruct (find_route_split m n e r old Hm He Hf) as (l1 & l2 & Hl & _ & Hk & Hrep & Hnd). unfold put_route. rewrite Hf, Hrep.
  injection Hk as Hk _. rewrite map_app in *. simpl in *. by rewrite <-Hk.
Qed.
Lemma not_inherits (R : rib) n f : (forall q, proper_prefix q n -> ~ inherits R q f) -> anc (rho_of (rb_map R)) n f = None.
Proof.
  intros H. apply anc_no_ci. intros q Hq. destruct (ci (rho_of (rb_map R)) q f) as [x|] eqn:Ex; [|done]. exfalso. apply (H q Hq).
  apply ci_face in Ex as (H1 & H2 & H3). by exists x.
Qed.
Lemma route_at_find (R : rib) n e r old : rb_map R !! n = Some e -> find_route r (re_routes e) = Some old -> route_at R n (r_face r) (r_origin r) = Some old.
Proof. intros He Hf. unfold route_at, routes_at. rewrite He. rewrite <-Hf. unfold find_route. apply find_ext. done. Qed.
Lemma captures_all l : captures l = false <-> forall x, x ∈ l -> rib_capture x = false.
Proof.
  unfold captures. rewrite <-not_true_iff_false, existsb_exists. split.
  - intros H x Hx. apply not_true_iff_false. intros Hc. apply H. exists x. split; [by apply elem_of_list_In|done].
  - intros H (x & Hx & Hc). apply elem_of_list_In in Hx. by rewrite H in Hc.
Qed.
Lemma safe_no_anc (R : rib) n r e old :
  tame_map (rb_map R) -> rb_map R !! n = Some e -> find_route r (re_routes e) = Some old -> safe_unregister R n r ->
  child_inherit old = true \/ rib_capture old = true -> captures (drop_route r (re_routes e)) = false ->
  forall f, f <> r_face r -> ci (rho_of (rb_map R)) n f <> None -> anc (rho_of (rb_map R)) n f = None.
Proof.
  intros Hm He Hf Hs Hc Hcap f Hne Hci. destruct (ci (rho_of (rb_map R)) n f) as [y|] eqn:Ey; [|done].
  destruct (Hs old (route_at_find R n e r old He Hf)) as [Hs1 _]. apply not_inherits. intros q Hq. apply Hs1; [done| |done| |done].
  - intros x Hx Hxf. apply (proj1 (captures_all _) Hcap). destruct (find_route_split _ n e r old Hm He Hf) as (l1 & l2 & Hl & -> & Hk & _). unfold routes_at in Hx. rewrite He, Hl in Hx.
    injection Hk as Hk _. apply elem_of_app in Hx as [Hx|[->|Hx]%elem_of_cons]; [set_solver|congruence|set_solver].
  - apply ci_face in Ey as (H1 & H2 & H3). by exists y.
Qed.
Lemma safe_last (R : rib) n r e old :
  tame_map (rb_map R) -> rb_map R !! n = Some e -> find_route r (re_routes e) = Some old -> safe_unregister R n r ->
  rib_capture old = true -> drop_route r (re_routes e) = [] -> (forall d f, under (rb_map R) n d f = false) \/ (forall f, anc (rho_of (rb_map R)) n f = None).
Proof.
  intros Hm He Hf Hs Hc Hd. destruct (Hs old (route_at_find R n e r old He Hf)) as [_ Hs2].
  destruct (find_route_split _ n e r old Hm He Hf) as (l1 & l2 & Hl & E & _). rewrite Hd in E. symmetry in E. apply app_nil in E as [-> ->].
  destruct Hs2 as [K|K]; [done|unfold routes_at; by rewrite He|left|right].
  - intros d f. apply not_true_iff_false. intros (H1 & H2 & _)%under_spec. by apply (K d).
  - intros f. apply not_inherits. intros q Hq. by apply K.
Qed.
Lemma ncap_put r l : (forall old, find_route r l = Some old -> rib_capture old = rib_capture r) -> (N.of_nat (length l) < 2 ^ 64 - 1)%N -> ncap l = (ncap l mod U64)%N /\ ncap (put_route r l) = new_ncap r l (ncap l) /\ (ncap (put_route r l) < U64)%N.
Proof.
  intros Hs Hlen. assert (Hle : (ncap l <= N.of_nat (length l))%N). { unfold ncap. clear. induction l as [|x l IH]; simpl; [done|]. destruct (rib_capture x); simpl; lia. }
  assert (HU : (U64 = 2 ^ 64)%N) by done. assert (HU' : (1 <= U64)%N) by done. rewrite <-HU in Hlen. clear HU.
  pose proof (caps_put r l Hs) as K. change (ncaps l) with (ncap l) in K. change (ncaps (put_route r l)) with (ncap (put_route r l)) in K.
  assert (Hm : (ncap l mod U64 = ncap l)%N) by (apply N.mod_small; lia). rewrite Hm in K.
  assert (Hp : (ncap (put_route r l) <= ncap l + 1)%N).
  { unfold put_route. destruct (find_route r l) as [old|] eqn:Ef.
    - specialize (Hs old eq_refl). destruct (remove_first_split _ _ _ Ef) as (l1 & l2 & -> & _ & -> & _). unfold ncap. rewrite !List.filter_app. simpl. rewrite Hs. destruct (rib_capture r); rewrite !app_length; simpl; lia.
    - unfold ncap. rewrite List.filter_app, app_length. simpl. destruct (rib_capture r); simpl; lia. }
  rewrite N.mod_small in K by lia. split; [done|]. split; [done|lia].
Qed.

Lemma register_ok S n r : tame S -> safe_register (sy_rib S) n r ->
  exists S', sys_step (EUpdate (RibUpdate Register n r)) S = Some S' /\ tame S'.
Proof.
  intros Ht (Hfl & Horig & Hinh & Hcap & Hold & Hlen). pose proof (ta_map S Ht) as Hm. unfold sys_step, compute. cbn [ru_action ru_name ru_route].
  set (l := put_route r (routes_at (sy_rib S) n)).
  assert (exists c, compute_register (rb_map (sy_rib S)) n r (Upd (r_face r) [] [] []) = Some c /\ good (rb_map (sy_rib S)) n l (r_face r) c) as (c & Ec & Hg).
  { unfold l, routes_at. destruct (rb_map (sy_rib S) !! n) as [e|] eqn:He; [|by apply good_new_entry].
    assert (Hs : child_inherit r = false -> inhb (rb_map (sy_rib S)) n (r_face r) = false). { intros Hc. apply inhb_inherited, Hinh; [done|by eexists]. }
    assert (Hra : routes_at (sy_rib S) n = re_routes e) by (unfold routes_at; by rewrite He).
    destruct (find_route r (re_routes e)) as [old|] eqn:Ef.
    { destruct (Hold old (route_at_find _ _ _ _ _ He Ef)) as [Ho1 Ho2]. eapply good_update; try done. intros Hc1 Hc2 Hc3. apply not_inherits, Ho2; [by rewrite Hra|done|done]. }
    unfold put_route. rewrite Ef. apply good_new_route; try done.
    2:{ intros Hc1 Hc2 x Hx. apply not_inherits. intros q Hq. apply Hcap; [done|by rewrite Hra|by rewrite Hra|done]. }
    intros (x & Hx & Hin)%elem_of_list_fmap. apply find_route_none in Ef. apply Ef. apply elem_of_list_fmap. exists x. split; [|done]. unfold key. f_equal; [done|].
    symmetry. apply Horig; [|done]. unfold routes_at. by rewrite He. }
  rewrite Ec. cbn [obind]. destruct (sy_dead S (u_face c) && existsb fu_add (u_batch c)); [by exists S|].
  destruct (rib_insert_ok n r (sy_rib S) (tm_hier _ Hm)) as (R1 & E1 & Hh & Hx & (e' & He' & Hst & _) & _).
  injection Hst as _ Hr' Hc' Hi'.
  assert (Hne : l <> []). { intros K. apply (f_equal length) in K. unfold l in K. rewrite put_route_len in K. destruct (find_route r (routes_at (sy_rib S) n)) eqn:Ef; [|done].
    destruct (routes_at (sy_rib S) n); done. }
  assert (Hput : ncap (routes_at (sy_rib S) n) = (ncap (routes_at (sy_rib S) n) mod U64)%N /\ ncap (put_route r (routes_at (sy_rib S) n)) = new_ncap r (routes_at (sy_rib S) n) (ncap (routes_at (sy_rib S) n)) /\ (ncap (put_route r (routes_at (sy_rib S) n)) < U64)%N).
  { apply ncap_put; [|done]. intros old Hf. unfold routes_at in Hf. destruct (rb_map (sy_rib S) !! n) as [e|] eqn:He; [|done]. by apply (Hold old (route_at_find _ _ _ _ _ He Hf)). }
  destruct (finish S (RibUpdate Register n r) n l c R1 c) as (R & ER & HT); try done; cbn [ru_action ru_name ru_route] in *.
  - destruct l eqn:El; [done|]. rewrite <-El in *. exists e'. split; [done|]. split; [done|]. split; [|by apply has_inh_inhb].
    rewrite Hc'. unfold l. rewrite (proj1 (proj2 Hput)). unfold routes_at. destruct (rb_map (sy_rib S) !! n) as [e|] eqn:He; [|done]. by rewrite (tm_ncap _ Hm n e He).
  - apply Hput.
  - apply Forall_forall. intros x [->|Hin]%put_route_in; [done|]. by apply (tm_flags _ Hm n).
  - unfold l, routes_at. destruct (rb_map (sy_rib S) !! n) as [e|] eqn:He; [|unfold put_route; simpl; apply NoDup_singleton].
    destruct (find_route r (re_routes e)) as [old|] eqn:Ef; [by eapply put_faces|]. unfold put_route. rewrite Ef, map_app. apply NoDup_app.
    pose proof (tm_faces _ Hm n) as K. unfold rho_of in K. rewrite He in K. split; [done|]. split; [|apply NoDup_singleton]. intros f (x & -> & Hin)%elem_of_list_fmap Hf%elem_of_list_singleton.
    apply find_route_none in Ef. apply Ef. apply elem_of_list_fmap. exists x. split; [|done]. unfold key. f_equal; [done|]. symmetry. apply Horig; [|done]. unfold routes_at. by rewrite He.
  - apply put_route_nodup. apply (tm_key _ Hm n).
  - by left.
  - exists (RibSys R (fold_left (fun F x => fib_do (sy_dead S) x F) (u_batch c ++ u_other c) (sy_fib S)) (sy_dead S)). rewrite ER. done.
Qed.

Local Instance rib_action_eq_dec : EqDecision rib_action.
Proof. solve_decision. Defined.
Lemma unregister_ok S a n r : a <> Register -> tame S -> safe_unregister (sy_rib S) n r -> (a = RemoveFace -> sy_dead S (r_face r) = true) ->
  exists S', sys_step (EUpdate (RibUpdate a n r)) S = Some S' /\ tame S'.
Proof.
  intros Ha Ht Hs Hdead. pose proof (ta_map S Ht) as Hm.
  destruct (find_route r (routes_at (sy_rib S) n)) as [old|] eqn:Ef.
  - unfold routes_at in Ef. destruct (rb_map (sy_rib S) !! n) as [e|] eqn:He; [|done].
    destruct (good_unregister _ n e r old Hm He Ef (safe_no_anc _ _ _ _ _ Hm He Ef Hs) (safe_last _ _ _ _ _ Hm He Ef Hs)) as (c & Ec & Hg).
    set (dropped := if bool_decide (a = RemoveFace) then Upd (u_face c) [] (u_other c) (u_inh c) else c).
    assert (compute (rb_map (sy_rib S)) (RibUpdate a n r) = Some dropped) as E.
    { unfold compute, dropped. cbn [ru_action ru_name ru_route]. destruct a; [done|by rewrite Ec|rewrite Ec; done]. }
    unfold sys_step. rewrite E. cbn [obind]. destruct (sy_dead S (u_face dropped) && existsb fu_add (u_batch dropped)); [by exists S|].
    destruct (rib_erase_ok n r (sy_rib S) e old (tm_hier _ Hm) He Ef) as (R1 & E1 & Hh & Hx & Hst & _).
    destruct (find_route_split _ n e r old Hm He Ef) as (l1 & l2 & Hl & Hdrop & Hk & _ & Hnd).
    assert (Hrho : rho_of (rb_map (sy_rib S)) n = re_routes e) by (unfold rho_of; by rewrite He).
    assert (Hsub : forall x, x ∈ l1 ++ l2 -> x ∈ rho_of (rb_map (sy_rib S)) n). { intros x. rewrite Hrho, Hl. set_solver. }
    destruct (erase_temp _ n e r old l1 l2 Hm He Ef Hl Hdrop) as (_ & _ & _ & _ & Hnc).
    destruct (finish S (RibUpdate a n r) n (drop_route r (re_routes e)) c R1 dropped) as (R & ER & HT); try done; cbn [ru_action ru_name ru_route] in *.
    + by destruct a.
    + destruct (drop_route r (re_routes e)) as [|x k] eqn:Ed.
      * rewrite bool_decide_true in Hst by done. by destruct (rb_map R1 !! n).
      * rewrite bool_decide_false in Hst by done. destruct (rb_map R1 !! n) as [e'|]; [|done]. exists e'. apply (inj Some) in Hst. injection Hst as _ H2 H3 H4. split; [done|]. split; [done|].
        split; [|apply has_inh_inhb; by rewrite He]. rewrite H3, Hdrop, <-Hnc. unfold erase_route. rewrite Ef. by destruct (rib_capture old).
    + rewrite Hdrop. pose proof (tm_bound _ Hm n) as K. rewrite Hrho, Hl in K. unfold ncap in *. rewrite List.filter_app, app_length in *. simpl in K. destruct (rib_capture old); simpl in K; lia.
    + rewrite Hdrop. apply Forall_forall. intros x Hx'. apply (tm_flags _ Hm n). by apply Hsub.
    + rewrite Hdrop. by apply nodup_mid in Hnd as (_ & _ & K).
    + rewrite Hdrop. pose proof (tm_key _ Hm n) as K. rewrite Hrho, Hl in K. rewrite map_app in *. simpl in K. rewrite NoDup_app in *. rewrite NoDup_cons in K.
      destruct K as (K1 & K2 & _ & K4). split; [done|]. split; [|done]. intros y Hy Hy'. eapply K2; [exact Hy|by right].
    + unfold dropped. destruct (decide (a = RemoveFace)) as [E'|E']; [rewrite bool_decide_true by done; right; split; [done|by apply Hdead]|rewrite bool_decide_false by done; by left].
    + exists (RibSys R (fold_left (fun F x => fib_do (sy_dead S) x F) (u_batch dropped ++ u_other dropped) (sy_fib S)) (sy_dead S)). rewrite ER. done.
  - exists S. split; [|done]. assert (compute (rb_map (sy_rib S)) (RibUpdate a n r) = Some (Upd (r_face r) [] [] [])) as E.
    { assert (compute_unregister (rb_map (sy_rib S)) n r (Upd (r_face r) [] [] []) = Some (Upd (r_face r) [] [] [])) as Ec.
      { unfold compute_unregister, routes_at in *. destruct (rb_map (sy_rib S) !! n) as [e|]; [|done]. by rewrite Ef. }
      unfold compute. cbn [ru_action ru_name ru_route]. destruct a; [done|done|by rewrite Ec]. }
    unfold sys_step. rewrite E. cbn [obind u_face u_batch existsb]. rewrite andb_false_r. unfold rib_apply. cbn [ru_action ru_name ru_route].
    assert (match a with Register => rib_insert n r (sy_rib S) | _ => rib_erase n r (sy_rib S) end = Some (sy_rib S)) as ->.
    { destruct a; [done|by apply rib_erase_none|by apply rib_erase_none]. }
    cbn [obind]. unfold modify_inherited. simpl. destruct S as [R F D]. simpl. by destruct R.
Qed.

Lemma step_ok S e : tame S -> safe_event S e -> exists S', sys_step e S = Some S' /\ tame S'.
Proof.
  intros Ht Hs. destruct e as [[a n r]|f|f].
  - destruct a; [by apply register_ok|by apply unregister_ok|destruct Hs as [H1 H2]; by apply unregister_ok].
  - eexists. split; [done|]. destruct Ht as [H1 H2]. split; [done|]. intros d g. simpl. rewrite H2. destruct (N.eqb_spec g f) as [->|Hne]; [|done].
    destruct (sy_dead S f) eqn:Ed; [|done]. symmetry. simpl in Hs.
    assert (Hnone : forall q, own (routes_at (sy_rib S)) q f = None).
    { intros q. apply (find_none_face f); [apply on_face_own|]. intros (x & Hx & Hin)%elem_of_list_fmap. by eapply Hs. }
    unfold want. rewrite Hnone. destruct (routes_at (sy_rib S) d); [done|].
    assert (anc (routes_at (sy_rib S)) d f = None) as ->; [|by destruct (captures _)]. apply anc_no_ci. intros q _. by apply ci_own.
  - eexists. split; [done|]. destruct Ht as [H1 H2]. split; [done|]. intros d g. simpl. rewrite H2. by destruct (N.eqb_spec g f) as [->|Hne].
Qed.
Lemma run_snoc l e : sys_run (l ++ [e]) = match sys_run l with Some T => sys_step e T | None => None end.
Proof. unfold sys_run. rewrite each_of_app. destruct (each_of sys_step l sys_init); [|done]. simpl. by destruct (sys_step e _). Qed.
Lemma safe_run_ok l : safe_run l -> exists T, sys_run l = Some T /\ tame T.
Proof.
  induction l as [|e l IH] using rev_ind; intros Hs; [exists sys_init; split; [done|apply tame_init]|].
  destruct IH as (T & E & Ht). { intros l1 e' l2 T -> Hr. eapply (Hs l1 e' (l2 ++ [e])); [|done]. by rewrite <-app_assoc. }
  destruct (step_ok T e Ht (Hs l e [] T eq_refl E)) as (T' & E' & Ht'). exists T'. split; [|done]. rewrite run_snoc, E. done.
Qed.

(** ** What is wanted *)
Lemma lowest_cost_find f P l : on_face f P -> NoDup (map r_face l) -> lowest_cost P l = option_map r_cost (List.find P l).
Proof.
  intros HP. induction l as [|x l IH]; intros Hnd; simpl; [done|]. rewrite map_cons in Hnd. apply NoDup_cons in Hnd as [Hx Hnd]. rewrite IH by done.
  destruct (P x) eqn:Ep; [|done]. destruct (List.find P l) as [y|] eqn:Ey; [|done]. exfalso. apply Hx. apply find_some_in in Ey as [H1 H2]. apply elem_of_list_fmap. exists y.
  split; [|done]. rewrite (HP x Ep). symmetry. by apply HP.
Qed.
Lemma want_wanted (R : rib) n f : tame_map (rb_map R) -> want (routes_at R) n f = wanted (routes_at R) n f.
Proof.
  intros Hm.
  assert (Hinh : inherited_cost (routes_at R) f (proper_prefixes n) = option_map r_cost (anc (routes_at R) n f)).
  { unfold anc. induction (proper_prefixes n) as [|q k IH]; simpl; [done|]. rewrite (lowest_cost_find f); [|apply on_face_ci|apply (tm_faces _ Hm q)].
    unfold blk at 1, ci at 1 2. change (fun r => (r_face r =? f)%N && child_inherit r) with (on_ci f). destruct (List.find (on_ci f) (routes_at R q)); [done|]. simpl. destruct (captures (routes_at R q)); [done|]. by rewrite IH. }
  unfold want, wanted, own. rewrite Hinh. pose proof (tm_faces _ Hm n) as K. change (rho_of (rb_map R) n) with (routes_at R n) in K.
  destruct (routes_at R n) as [|x k] eqn:E; [done|]. rewrite (lowest_cost_find f); [|apply on_face_own|done]. by destruct (List.find _ (x :: k)).
Qed.
