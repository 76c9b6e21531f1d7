(** C73: what management commands on the tables do, and what they answer *)
From stdpp Require Import gmap.
From Verif Require Import Lib Name_Model Name_Proof Packet_Model Nt_Model Tree_Model Tab_Model Tab_Spec Tab_At Tab_Fib Tab_Pit Tab_Pit2 Tab_Meas Tab_Sc Tab_Run Tab_Main Fw_Model Fw_Spec Fw_Inv Fw_Case Fw_Case2 Fw_Case3 Fw_Hist Fw_Acc Fw_Step Fw_Out Fw_Main Fw_Tally Fib_Props Fw_Ex FwFace_Props Mg_Model.
From Verif Require Cs_Model Dnl_Model.

(** packets of each kind *)
Definition is_rx_interest (o : io) : bool := match o with Rx_interest _ _ => true | _ => false end.
Definition is_rx_data (o : io) : bool := match o with Rx_data _ _ => true | _ => false end.
Definition is_rx_nack (o : io) : bool := match o with Rx_nack _ _ _ => true | _ => false end.
Definition is_tx_interest (o : io) : bool := match o with Tx_interest _ _ => true | _ => false end.
Definition is_tx_data (o : io) : bool := match o with Tx_data _ _ _ => true | _ => false end.
Definition is_tx_nack (o : io) : bool := match o with Tx_nack _ _ _ => true | _ => false end.
(** the parameters with the face that a command is about: the one given, or the one it came from if 0 is given *)
Definition about (tag : option N) (p q : fib_params) : Prop :=
  fp_name q = fp_name p /\ fp_cost q = fp_cost p /\ (if decide (fp_face p = 0%N) then tag = Some (fp_face q) else fp_face q = fp_face p).
(** what commands on the FIB and on strategy choices leave alone *)
Definition fixed (s s' : fw) : Prop :=
  fw_cs s' = fw_cs s /\ fw_dnl s' = fw_dnl s /\ fw_faces s' = fw_faces s /\ fw_regions s' = fw_regions s /\ fw_unsol s' = fw_unsol s /\ fw_hop s' = fw_hop s.
Lemma fixed_core s s' : same_core s s' -> fixed s s'.
Proof. by intros []. Qed.

Section props.
  Variable sort_nexthops : list nexthop -> list nexthop.
  Variable create_strategy : name -> create_result.
  Variable same_type : name -> name -> bool.
  Variable make_entry : name -> N -> Dnl_Model.fingerprint.
  Variable rand : nat -> nat.
  Variable face_order : list N -> list N.
  Variable strategies : name -> strategy.
  Notation step := (fw_step sort_nexthops create_strategy same_type make_entry rand face_order strategies).
  Notation reachable := (fw_reachable sort_nexthops create_strategy same_type make_entry rand face_order strategies).
  Hypothesis W : world_ok sort_nexthops same_type face_order.
  Notation inv_of R := (proj1 (reachable_inv _ _ _ _ _ _ _ W _ R)).
  Notation add := (cmd_add_nexthop sort_nexthops rand face_order strategies).
  Notation remove := cmd_remove_nexthop.
  Notation set_cmd := (cmd_set_strategy create_strategy same_type).
  Notation unset_cmd := (cmd_unset_strategy same_type).

  Lemma self_ok tag p : match fib_self tag p with Some q => about tag p q | None => fp_face p = 0%N /\ tag = None end.
  Proof using.
    unfold fib_self, about. change INVALID_FACEID with 0%N. destruct (N.eqb_spec (fp_face p) 0).
    - destruct tag; [|done]. simpl. by rewrite decide_True.
    - simpl. by rewrite decide_False.
  Qed.
  Lemma newhop_core p nh s s' u : Inv s -> on_new_next_hop rand face_order strategies p nh s = Some (s', u) -> same_core s s'.
  Proof.
    intros I H. unfold on_new_next_hop in H. apply bind_Some in H as (s0 & s1 & [= <- <-] & H).
    set (l := affected p (fw_t s)) in H. clearbody l. revert s I H. induction l as [|k l IH]; intros s I H; simpl in H; [injection H as <- <-; apply same_core_refl|].
    apply bind_Some in H as (s1 & v & H1 & H). apply bind_Some in H1 as (s2 & st & Hst & H1). unfold strategy_for in Hst.
    destruct (effective (pk_name k) (fw_t s)) as [[q inst]|]; [|done]. injection Hst as <- <-.
    assert (Hr : rtc (anyk None k) s s1) by (eapply run_satoms; [exact (wo_order _ _ _ W)|done|done|exact H1]).
    eapply same_core_trans; [by eapply satoms_core|]. apply IH; [by eapply satoms_inv|done].
  Qed.

  Lemma add_shape p f c s : Inv s -> length p <= 32 -> is_Some (fw_faces s !! f) -> exists T l sig, only_fib_at p (Some (FibEntry p l)) (fw_t s) T /\ Inv (set_t T s) /\
    (forall g, cost_of g l = if decide (g = f) then Some c else cost_of g (default [] (fe_nexthops <$> fib_at (fw_t s) p))) /\
    fib_mgr_add sort_nexthops rand face_order strategies p f c s = match sig with Some (q, nh) => on_new_next_hop rand face_order strategies q nh (set_t T s) | None => Some (set_t T s, tt) end.
  Proof.
    intros I L [fc Ef]. unfold fib_mgr_add. change MAX_DEPTH with 32. destruct (Nat.ltb_spec 32 (length p)) as [?|_]; [lia|]. unfold bind at 1, get. rewrite Ef.
    pose proof (iv_tab _ I) as It. destruct (fib_insert_ok p (fw_t s) (ti_tree _ It) (ti_fib _ It) L) as (T1 & E1 & H1 & H2 & H3).
    unfold bind at 1, tab. rewrite E1. cbn [fmap option_fmap option_map fst].
    set (fe := default (FibEntry p []) (fib_at (fw_t s) p)) in *.
    pose proof (only_fib_frame _ _ _ _ H3) as (Hfib & [Hp Hpn] & _ & [Hs _] & Hn).
    assert (Hfe : fib_at T1 p = Some fe) by (by rewrite Hfib, decide_True).
    destruct (fib_add_ok sort_nexthops p f c T1 (wo_sort _ _ _ W) H1 H2 fe Hfe) as (T2 & sig & l & E2 & G1 & G2 & G3 & G4 & G5 & G6 & G7).
    unfold bind. cbn [set_t fw_t]. rewrite E2.
    change (set_t T2 (set_t T1 s)) with (set_t T2 s).
    assert (Ho : only_fib_at p (Some (FibEntry p l)) (fw_t s) T2).
    { destruct G3 as (A1 & A2 & A3 & A4 & A5), H3 as (B1 & B2 & B3 & B4 & B5). split; [|repeat split; congruence].
      intros k. rewrite A1, !B1. rewrite (decide_True (P := p = p)) by done. by destruct (decide (k = p)). }
    assert (Hfe' : fe_nexthops fe = default [] (fe_nexthops <$> fib_at (fw_t s) p)) by (unfold fe; by destruct (fib_at (fw_t s) p)).
    assert (He : env s (set_t T2 s)).
    { eapply env_fib; [done|done|done|exact Ho|]. intros fe' [= <-]. simpl. split.
      - intros ->. specialize (G5 f). rewrite decide_True in G5 by done. done.
      - intros h Hh. pose proof (nh_cost_of _ _ G4 Hh) as Hc. rewrite G5 in Hc. case_decide as Eg; [rewrite Eg; by eexists|].
        rewrite Hfe' in Hc. destruct (fib_at (fw_t s) p) as [fe0|] eqn:E0; simpl in Hc; [|done].
        apply cost_of_elem in Hc; [|apply (proj1 (ti_fib _ It) p fe0 E0)]. by apply (iv_fib _ I p fe0 E0) in Hc. }
    exists T2, l, sig. split; [done|]. split; [apply He|]. split; [by rewrite <- Hfe'|]. by destruct sig as [[? ?]|].
  Qed.
  (** C73: fib/add-nexthop.  A name of more than 32 components is refused with 414, a face that does not exist with 410, and
      nothing changes; otherwise the answer is 200 with the name, face and cost, the face is a nexthop of the name with that
      cost, and no other nexthop, face, strategy choice or stored Data changes.  It is undefined only if a command about its own
      face has no tag, or if a strategy fails when it hears of a new nexthop. *)
  Theorem C73_add tag p s : reachable s ->
    match add tag p s with
    | None => (fp_face p = 0%N /\ tag = None) \/ exists q nh s1, on_new_next_hop rand face_order strategies q nh s1 = None
    | Some (s', Response code body) => exists q, about tag p q /\
        (code = 414%N <-> 32 < length (fp_name p)) /\ (code = 410%N <-> length (fp_name p) <= 32 /\ ~ face_exists s (fp_face q)) /\
        (if decide (code = 200%N) then body = Some q /\ (forall n g, nexthop_cost s' n g = if decide (n = fp_name p /\ g = fp_face q) then Some (fp_cost p) else nexthop_cost s n g) /\
           (forall n, sc_at (fw_t s') n = sc_at (fw_t s) n) /\ fixed s s' /\ now (fw_t s') = now (fw_t s)
         else (code = 414%N \/ code = 410%N) /\ body = None /\ s' = s)
    end.
  Proof.
    intros R. pose proof (inv_of R) as I. unfold cmd_add_nexthop. pose proof (self_ok tag p) as Hs. destruct (fib_self tag p) as [q|]; [|by left].
    pose proof Hs as (Hn & Hc & _). change MAX_DEPTH with 32. destruct (Nat.ltb_spec 32 (length (fp_name q))) as [L|L].
    { exists q. split; [done|]. rewrite Hn in L. split; [done|]. split; [split; [done|lia]|]. simpl. split; [by left|done]. }
    destruct (fw_faces s !! fp_face q) as [fc|] eqn:Ef.
    2:{ exists q. split; [done|]. rewrite Hn in L. split; [split; [done|lia]|]. split; [|split; [by right|done]]. split; [|done]. intros _. split; [done|]. unfold face_exists. rewrite Ef. by intros []. }
    assert (Hex : face_exists s (fp_face q)) by (by exists fc).
    destruct (add_shape (fp_name q) (fp_face q) (fp_cost q) s I L Hex) as (T & l & sig & Ho & I' & Hcost & E). rewrite E.
    pose proof (only_fib_frame _ _ _ _ Ho) as (Hfib & _ & _ & [Hsc _] & Hnow).
    assert (Hg : forall s', same_core (set_t T s) s' -> exists q0, about tag p q0 /\ (200%N = 414%N <-> 32 < length (fp_name p)) /\ (200%N = 410%N <-> length (fp_name p) <= 32 /\ ~ face_exists s (fp_face q0)) /\
       (Some q = Some q0 /\ (forall n g, nexthop_cost s' n g = if decide (n = fp_name p /\ g = fp_face q0) then Some (fp_cost p) else nexthop_cost s n g) /\
           (forall n, sc_at (fw_t s') n = sc_at (fw_t s) n) /\ fixed s s' /\ now (fw_t s') = now (fw_t s))).
    { intros s' Hco. exists q. split; [done|]. rewrite <- Hn, <- Hc. split; [split; [done|lia]|]. split; [split; [done|by intros [_ ?]]|]. split; [done|].
      split; [|split; [|split; [by apply (fixed_core _ _ Hco)|]]].
      - intros n g. unfold nexthop_cost. rewrite (sc_fib _ _ Hco). cbn [set_t fw_t]. rewrite Hfib. destruct (decide (n = fp_name q)) as [->|Hne].
        + cbn [mbind option_bind]. cbn [fe_nexthops]. rewrite Hcost. destruct (decide (g = fp_face q)) as [->|Hg]; [by rewrite decide_True|]. rewrite decide_False by naive_solver.
          by destruct (fib_at (fw_t s) (fp_name q)).
        + rewrite decide_False by naive_solver. done.
      - intros n. rewrite (sc_sc _ _ Hco). apply Hsc.
      - rewrite (sc_now _ _ Hco). apply Hnow. }
    destruct sig as [[q1 nh]|].
    - destruct (on_new_next_hop _ _ _ _ _ _) as [[s' u]|] eqn:Eh; [|right; by eexists _, _, _]. apply newhop_core in Eh; [|done]. apply (Hg s' Eh).
    - apply (Hg (set_t T s)). apply same_core_refl.
  Qed.
  (** C73: fib/remove-nexthop is always answered with 200; afterwards the face is not a nexthop of the name, and nothing else
      changed *)
  Theorem C73_remove tag p s : reachable s ->
    match remove tag p s with
    | None => fp_face p = 0%N /\ tag = None
    | Some (s', Response code body) => exists q, about tag p q /\ code = 200%N /\ body = Some q /\ reachable s' /\
        (forall n g, nexthop_cost s' n g = if decide (n = fp_name p /\ g = fp_face q) then None else nexthop_cost s n g) /\
        (forall n, sc_at (fw_t s') n = sc_at (fw_t s) n) /\ (forall k, pit_at (fw_t s') k = pit_at (fw_t s) k) /\ (forall n, meas_at (fw_t s') n = meas_at (fw_t s) n) /\
        fixed s s' /\ fw_cnt s' = fw_cnt s /\ fw_log s' = fw_log s
    end.
  Proof.
    intros R. pose proof (inv_of R) as I. unfold cmd_remove_nexthop. pose proof (self_ok tag p) as Hs. destruct (fib_self tag p) as [q|]; [|done].
    pose proof Hs as (Hn & _ & _).
    assert (Hd : fib_mgr_remove (fp_name q) (fp_face q) s <> None).
    { unfold fib_mgr_remove, bind, get. destruct (fw_faces s !! fp_face q); [|done]. destruct (fib_at (fw_t s) (fp_name q)) as [fe|] eqn:E0; [|done].
      pose proof (iv_tab _ I) as It. destruct (fib_remove_ok (fp_name q) (fp_face q) (fw_t s) (ti_tree _ It) (ti_fib _ It) fe E0) as (T & res & E1 & _). unfold tab. by rewrite E1. }
    destruct (fib_mgr_remove _ _ s) as [[s' []]|] eqn:E; [|done]. exists q. split; [done|]. split; [done|]. split; [done|].
    split; [eapply (fw_reach_step _ _ _ _ _ _ _ s (EvFibRemove (fp_name q) (fp_face q))); [done|done|]; unfold fw_step; simpl; by rewrite E|]. rewrite <- Hn.
    apply fib_remove_case in E as [[-> Hno]|(T & l & fe & -> & _ & _ & Hfe & Ho & _ & Hcost)]; [| |done].
    - split; [|done]. intros n g. destruct (decide _) as [[-> ->]|]; [|done]. unfold nexthop_cost. destruct (fib_at (fw_t s) (fp_name q)) as [fe|] eqn:E; [|done]. simpl.
      destruct Hno as [Hf|Hf]; [|by simpl in Hf]. destruct (cost_of (fp_face q) (fe_nexthops fe)) as [c|] eqn:Ec; [|done]. exfalso.
      unfold cost_of in Ec. destruct (List.find _ _) as [h|] eqn:Eh; [|done]. apply find_some in Eh as [Hh%elem_of_list_In Hx%N.eqb_eq].
      destruct (iv_fib _ I _ _ E) as [_ Hin]. destruct (Hin h Hh) as [? Hy]. by rewrite Hx, Hf in Hy.
    - pose proof (only_fib_frame _ _ _ _ Ho) as (Hfib & [Hp _] & [Hm _] & [Hsc _] & _). split; [|done]. intros n g. unfold nexthop_cost. cbn [set_t fw_t]. rewrite Hfib.
      destruct (decide (n = fp_name q)) as [->|Hne]; [|by rewrite decide_False by naive_solver]. rewrite Hfe. cbn [mbind option_bind].
      assert (Hl : (match l with [] => None | _ => Some (FibEntry (fp_name q) l) end ≫= fun fe => cost_of g (fe_nexthops fe)) = cost_of g l) by (by destruct l). rewrite Hl, Hcost.
      destruct (decide (g = fp_face q)) as [->|]; [by rewrite decide_True|]. by rewrite decide_False by naive_solver.
  Qed.
  (** C73: strategy-choice/set.  The code tells why a choice is refused, and then nothing changes; else the answer carries the
      full name of the instance, and the prefix, and only it, has that choice *)
  Theorem C73_set p s : reachable s -> exists s' code body, set_cmd p s = Some (s', Response code body) /\ reachable s' /\ fixed s s' /\ fw_cnt s' = fw_cnt s /\ fw_log s' = fw_log s /\
    code = (if (32 <? length (sp_name p))%nat then 414 else match create_strategy (sp_strategy p) with Created _ => 200 | NotRegistered => 404 | CreateException => 409 end)%N /\
    if decide (code = 200%N)
    then exists i, create_strategy (sp_strategy p) = Created i /\ body = Some (ScParams (sp_name p) i) /\ forall n, sc_at (fw_t s') n = if decide (n = sp_name p) then Some i else sc_at (fw_t s) n
    else body = None /\ s' = s.
  Proof.
    intros R. pose proof (inv_of R) as I. pose proof (iv_tab _ I) as It.
    destruct (sc_insert_ok create_strategy same_type (wo_type _ _ _ W) (sp_name p) (sp_strategy p) (fw_t s) (ti_tree _ It) (ti_sc _ It) (iv_root _ I)) as (T & res & E & H1 & H2 & H3 & H4 & H5 & H6).
    assert (R' : reachable (set_t T s)).
    { eapply (fw_reach_step _ _ _ _ _ _ _ s (EvStrategySet (sp_name p) (sp_strategy p))); [done|done|]. unfold fw_step. simpl. unfold tab. by rewrite E. }
    unfold cmd_set_strategy. rewrite E. destruct res; cbn [sc_code].
    - destruct (H6 eq_refl) as (i & Hi & Hq & _). change (sc_get (sp_name p) T) with (sc_at T (sp_name p)). rewrite Hq, decide_True by done. eexists _, _, _. split; [done|]. split; [done|].
      split; [done|]. split; [done|]. split; [done|]. split.
      { destruct (_ <? _)%nat; [done|]. by rewrite Hi. }
      simpl. exists i. done.
    - eexists _, _, _. split; [done|]. split; [done|]. split; [done|]. split; [done|]. split; [done|]. split.
      { destruct (_ <? _)%nat; [done|]. by destruct (create_strategy _). }
      simpl. rewrite H5 by done. split; [done|by destruct s].
    - eexists _, _, _. split; [done|]. split; [done|]. split; [done|]. split; [done|]. split; [done|]. split.
      { destruct (_ <? _)%nat; [done|]. by destruct (create_strategy _). }
      simpl. rewrite H5 by done. split; [done|by destruct s].
    - eexists _, _, _. split; [done|]. split; [done|]. split; [done|]. split; [done|]. split; [done|]. split.
      { destruct (_ <? _)%nat; [done|]. by destruct (create_strategy _). }
      simpl. rewrite H5 by done. split; [done|by destruct s].
  Qed.
  (** C73: strategy-choice/unset of a prefix other than the root (which the format of the command excludes) *)
  Theorem C73_unset p s : reachable s -> sp_name p <> [] -> exists s', unset_cmd p s = Some (s', Response 200 (Some p)) /\ reachable s' /\ fixed s s' /\ fw_cnt s' = fw_cnt s /\ fw_log s' = fw_log s /\
    forall n, sc_at (fw_t s') n = if decide (n = sp_name p) then None else sc_at (fw_t s) n.
  Proof.
    intros R Hp. pose proof (inv_of R) as I. pose proof (iv_tab _ I) as It.
    destruct (sc_erase_ok create_strategy same_type (wo_type _ _ _ W) (sp_name p) (fw_t s) (ti_tree _ It) (ti_sc _ It) (iv_root _ I) Hp) as (T & E & H1 & H2 & H3 & H4 & H5).
    exists (set_t T s). unfold cmd_unset_strategy. rewrite E. split; [done|]. split; [|done].
    eapply (fw_reach_step _ _ _ _ _ _ _ s (EvStrategyUnset (sp_name p))); [done|done|]. unfold fw_step. simpl. unfold tab. by rewrite E.
  Qed.
  (** C73: the datasets: one row per entry, with its nexthops by increasing cost, each face once and at least one *)
  Theorem C73_list_fib s : reachable s -> let rows := list_fib (fw_t s) in
    NoDup (fst <$> rows) /\ (forall n f c, nexthop_cost s n f = Some c <-> exists l, (n, l) ∈ rows /\ (f, c) ∈ l) /\
    forall n l, (n, l) ∈ rows -> l <> [] /\ NoDup (fst <$> l) /\ StronglySorted (fun x y => snd x <= snd y)%N l.
  Proof.
    intros R. pose proof (inv_of R) as I. pose proof (ti_fib _ (iv_tab _ I)) as Hf. cbv zeta.
    assert (Hrow : forall n l, (n, l) ∈ list_fib (fw_t s) <-> exists fe, fib_at (fw_t s) n = Some fe /\ l = map (fun h => (nh_face h, nh_cost h)) (fe_nexthops fe)).
    { intros n l. unfold list_fib. rewrite elem_of_list_omap. split.
      - intros ([m e] & Hm%elem_of_map_to_list & Hx). simpl in Hx. destruct (e_fib e) as [fe|] eqn:Ee; [|done]. injection Hx as <- <-.
        assert (Hm' : fib_at (fw_t s) m = Some fe) by (unfold fib_find; by rewrite Hm). destruct (proj1 Hf m fe Hm') as [-> _]. by exists fe.
      - intros (fe & Hfe & ->). unfold fib_find in Hfe. destruct (tr (fw_t s) !! n) as [e|] eqn:Ee; [|done]. exists (n, e). split; [by apply elem_of_map_to_list|]. simpl. simpl in Hfe. rewrite Hfe. simpl.
        assert (Hn' : fib_at (fw_t s) n = Some fe) by (unfold fib_find; by rewrite Ee). by destruct (proj1 Hf n fe Hn') as [-> _]. }
    split; [|split].
    - unfold list_fib. assert (Hpre : forall x, x ∈ map_to_list (tr (fw_t s)) -> forall fe, e_fib (snd x) = Some fe -> fe_prefix fe = fst x).
      { intros [m e] Hm%elem_of_map_to_list fe He. simpl in *. apply (proj1 Hf m fe). unfold fib_find. by rewrite Hm. }
      pose proof (NoDup_fst_map_to_list (tr (fw_t s))) as Hnd. revert Hpre Hnd. generalize (map_to_list (tr (fw_t s))). induction l as [|x l IH]; intros Hpre Hnd; [constructor|].
      inversion Hnd as [|? ? Hx Hnd']; subst. simpl. destruct (e_fib (snd x)) as [fe|] eqn:Ee; simpl; [|apply IH; [intros; apply Hpre; [by right|done]|done]].
      constructor; [|apply IH; [intros; apply Hpre; [by right|done]|done]]. rewrite (Hpre x ltac:(left) fe Ee). intros Hin. apply Hx.
      apply elem_of_list_fmap in Hin as (y & Hy & Hin). apply elem_of_list_omap in Hin as (z & Hz & Hin). destruct (e_fib (snd z)) as [fz|] eqn:Ez; [|done]. injection Hin as <-. simpl in Hy.
      rewrite (Hpre z ltac:(by right) fz Ez) in Hy. rewrite Hy. apply elem_of_list_fmap. by exists z.
    - intros n f c. unfold nexthop_cost. split.
      + destruct (fib_at (fw_t s) n) as [fe|] eqn:E; [|done]. simpl. intros Hc. exists (map (fun h => (nh_face h, nh_cost h)) (fe_nexthops fe)). split; [apply Hrow; by exists fe|].
        unfold cost_of in Hc. destruct (List.find _ _) as [h|] eqn:Eh; [|done]. injection Hc as <-. apply find_some in Eh as [Hh%elem_of_list_In <-%N.eqb_eq].
        apply elem_of_list_fmap. by exists h.
      + intros (l & Hl & Hc). apply Hrow in Hl as (fe & Hfe & ->). rewrite Hfe. simpl. apply elem_of_list_fmap in Hc as (h & [= -> ->] & Hh). apply nh_cost_of; [|done]. by apply (proj1 Hf n fe Hfe).
    - intros n l Hl. apply Hrow in Hl as (fe & Hfe & ->). destruct (iv_fib _ I _ _ Hfe) as [Hne _]. destruct (proj1 Hf _ _ Hfe) as [_ [Hso Hnd]].
      split; [by destruct (fe_nexthops fe)|]. split; [|].
      + rewrite <- list_fmap_compose. exact Hnd.
      + clear -Hso. induction Hso as [|h l Hs IH Hall]; simpl; [constructor|]. constructor; [done|]. apply Forall_map. eapply Forall_impl; [exact Hall|]. intros x Hx. exact Hx.
  Qed.
  Theorem C73_list_choices s : reachable s -> let rows := list_choices (fw_t s) in
    NoDup (fst <$> rows) /\ forall n i, (n, i) ∈ rows <-> sc_at (fw_t s) n = Some i.
  Proof.
    intros R. cbv zeta. unfold list_choices. split.
    - pose proof (NoDup_fst_map_to_list (tr (fw_t s))) as Hnd. revert Hnd. generalize (map_to_list (tr (fw_t s))). induction l as [|x l IH]; intros Hnd; [constructor|].
      inversion Hnd as [|? ? Hx Hnd']; subst. simpl. destruct (e_sc (snd x)) as [i|] eqn:Ee; simpl; [|by apply IH].
      constructor; [|by apply IH]. intros Hin. apply Hx.
      apply elem_of_list_fmap in Hin as (y & Hy & Hin). apply elem_of_list_omap in Hin as (z & Hz & Hin). destruct (e_sc (snd z)) as [j|] eqn:Ez; [|done]. injection Hin as <-. simpl in Hy.
      rewrite Hy. apply elem_of_list_fmap. by exists z.
    - intros n i. rewrite elem_of_list_omap. unfold sc_get. split.
      + intros ([m e] & Hm%elem_of_map_to_list & Hx). simpl in Hx. destruct (e_sc e) as [j|] eqn:Ee; [|done]. injection Hx as <- <-. by rewrite Hm.
      + intros H. destruct (tr (fw_t s) !! n) as [e|] eqn:Ee; [|done]. exists (n, e). split; [by apply elem_of_map_to_list|]. simpl in *. by rewrite H.
  Qed.
  (** C73: the numbers of entries in the general status are the numbers of entries, and its counters of packets are the numbers
      of packets received and sent since the start, all modulo 2^64 *)
  Theorem C73_status s : reachable s -> let st := collect_status s in
    counts (fun n => tr (fw_t s) !! n) (N.to_nat (st_name_tree st)) /\
    counter_ok (st_fib st) (fun n => fib_at (fw_t s) n) /\ counter_ok (st_pit st) (fun k => pit_at (fw_t s) k) /\ counter_ok (st_measurements st) (fun n => meas_at (fw_t s) n) /\
    st_cs st = N.of_nat (length (Cs_Model.cs_table (fw_cs s))) /\
    (let sent P := (how_many P (fw_log s) mod 2 ^ 64)%N in
     st_in_interests st = sent is_rx_interest /\ st_out_interests st = sent is_tx_interest /\ st_in_data st = sent is_rx_data /\ st_out_data st = sent is_tx_data /\
     st_in_nacks st = sent is_rx_nack /\ st_out_nacks st = sent is_tx_nack) /\
    (st_satisfied st, st_unsatisfied st) = (c_satisfied (fw_cnt s), c_unsatisfied (fw_cnt s)).
  Proof.
    intros R. pose proof (inv_of R) as I. pose proof (iv_tab _ I) as It. cbv zeta. unfold collect_status. cbn [st_name_tree st_fib st_pit st_measurements st_cs st_in_interests st_out_interests st_in_data st_out_data st_in_nacks st_out_nacks st_satisfied st_unsatisfied].
    split; [|split; [apply (ti_fib _ It)|split; [|split; [apply (ti_meas _ It)|split; [done|split; [|done]]]]]].
    - exists (fst <$> map_to_list (tr (fw_t s))). split; [apply NoDup_fst_map_to_list|]. split; [rewrite fmap_length, Nat2N.id; unfold size, map_size; done|].
      intros n. rewrite elem_of_list_fmap. split; [intros ([m e] & -> & Hm%elem_of_map_to_list); by exists e|intros [e He]; exists (n, e); split; [done|by apply elem_of_map_to_list]].
    - destruct (pi_count _ _ _ (ti_pit _ It)) as (k & Hk & ->). exists k. split; [|done]. eapply counts_ext; [|exact Hk]. intros x. by rewrite pit_at_pview.
    - repeat match goal with |- _ /\ _ => split end; [refine (reachable_tally _ _ _ _ _ _ _ c_in_interests is_rx_interest _ s _ R); [by split|done]|
        refine (reachable_tally _ _ _ _ _ _ _ c_out_interests is_tx_interest _ s _ R); [by split|done]|
        refine (reachable_tally _ _ _ _ _ _ _ c_in_data is_rx_data _ s _ R); [by split|done]|
        refine (reachable_tally _ _ _ _ _ _ _ c_out_data is_tx_data _ s _ R); [by split|done]|
        refine (reachable_tally _ _ _ _ _ _ _ c_in_nacks is_rx_nack _ s _ R); [by split|done]|
        refine (reachable_tally _ _ _ _ _ _ _ c_out_nacks is_tx_nack _ s _ R); [by split|done]].
  Qed.
End props.
Print Assumptions C73_add.
Print Assumptions C73_remove.
Print Assumptions C73_set.
Print Assumptions C73_unset.
Print Assumptions C73_list_fib.
Print Assumptions C73_list_choices.
Print Assumptions C73_status.

(** ** Cases that meet the hypotheses *)
Definition code_of {P} (r : option (fw * response P)) : option N := match r with Some (_, Response c _) => Some c | None => None end.
Definition mg_hist : list event := ex_faces ++ [EvFibAdd [gc 1] 258 7; EvInterest 256 (ex_interest [gc 1; gc 2] 1)].
Definition mg_add := cmd_add_nexthop isort ex_rand ex_order ex_strategies.
(** a nexthop for the face that the command came from, with an Interest pending to which the strategy reacts; the refusals *)
Example C73_add_ex : ex_holds mg_hist (fun s =>
  match mg_add (Some 257%N) (FibParams [gc 1] 0 5) s with
  | Some (s', Response 200 (Some q)) => bool_decide (fp_face q = 257%N) && bool_decide (nexthop_cost s' [gc 1] 257 = Some 5%N) && bool_decide (nexthop_cost s' [gc 1] 258 = Some 7%N)
  | _ => false
  end &&
  bool_decide (code_of (mg_add None (FibParams [gc 1] 300 5) s) = Some 410%N) && bool_decide (code_of (mg_add None (FibParams (replicate 33 (gc 1)) 300 5) s) = Some 414%N) &&
  bool_decide (code_of (mg_add None (FibParams (replicate 32 (gc 1)) 257 5) s) = Some 200%N) && bool_decide (code_of (mg_add None (FibParams [gc 1] 0 5) s) = None)) = true.
Proof. by vm_compute. Qed.
Example C73_remove_ex : ex_holds mg_hist (fun s =>
  match cmd_remove_nexthop (Some 258%N) (FibParams [gc 1] 0 0) s with
  | Some (s', Response 200 _) => bool_decide (nexthop_cost s' [gc 1] 258 = None) && bool_decide (list_fib (fw_t s') = [])
  | _ => false
  end && bool_decide (list_fib (fw_t s) = [([gc 1], [(258, 7)%N])])) = true.
Proof. by vm_compute. Qed.
Example C73_set_ex : ex_holds mg_hist (fun s =>
  match cmd_set_strategy ex_create name_eqb (ScParams [gc 1] [gc 9]) s with
  | Some (s', Response 200 (Some q)) => bool_decide (sc_at (fw_t s') [gc 1] = Some (sp_strategy q)) &&
      match cmd_unset_strategy name_eqb (ScParams [gc 1] []) s' with Some (s2, Response 200 _) => bool_decide (sc_at (fw_t s2) [gc 1] = None) | _ => false end
  | _ => false
  end) = true.
Proof. by vm_compute. Qed.
Example C73_status_ex : ex_holds (mg_hist ++ [EvData 258 (ex_data [gc 1; gc 2])]) (fun s => let st := collect_status s in
  bool_decide ([st_fib st; st_pit st; st_cs st; st_in_interests st; st_out_interests st; st_in_data st; st_out_data st; st_in_nacks st; st_out_nacks st] = [1; 1; 1; 1; 1; 1; 1; 0; 0]%N) &&
  (3 <=? st_name_tree st)%N) = true.
Proof. by vm_compute. Qed.
