(** What each pipeline does, continued: timers, management and configuration; the invariant holds
    of every reachable state *)
From stdpp Require Import gmap.
From Verif Require Import Lib Name_Model Name_Proof Packet_Model Nt_Model Nt_Spec Nt_Tree Tree_Model Tree_Proof Tab_Model Tab_Spec Tab_At Tab_Fib Tab_Pit Tab_Pit2 Tab_Meas Tab_Sc Tab_Clean Tab_Run Tab_Main Fw_Model Fw_Spec Fw_Inv Fw_Case Fw_Case2.
From Verif Require Cs_Model Cs_Spec Cs_Main Cs_Run Dnl_Model.

(** a step that sends nothing and leaves the records of all PIT entries *)
Record env (s s' : fw) : Prop := {
  en_inv : Inv s';
  en_log : fw_log s' = fw_log s;
  en_cnt : fw_cnt s' = fw_cnt s;
  en_pits : forall k, option_Forall2 (fun e e' => like e e' /\ pe_timer e' = pe_timer e) (pit_at (fw_t s) k) (pit_at (fw_t s') k);
  en_n : pit_n (fw_t s') = pit_n (fw_t s);
  en_faces : fw_faces s ⊆ fw_faces s';
  en_last : (fw_last s <= fw_last s')%N;
  en_now : (now (fw_t s) <= now (fw_t s'))%Z;
}.
Inductive mstep (s s' : fw) : Prop :=
| mt_atom k a : satom None k a s s' -> mstep s s'
| mt_env : env s s' -> mstep s s'.

Lemma msteps_inv s s' : Inv s -> rtc mstep s s' -> Inv s'.
Proof. intros I H. induction H as [|s s1 s' H1 H2 IH]; [done|]. apply IH. destruct H1 as [k a H1|H1]; [by eapply satom_inv|apply H1]. Qed.
Lemma satoms_msteps k s s' : rtc (anyk None k) s s' -> rtc mstep s s'.
Proof. induction 1 as [|s s1 s' (a & H1 & _) H2 IH]; [done|]. econstructor; [by eapply mt_atom|done]. Qed.

Lemma pits_refl s k : option_Forall2 (fun e e' => like e e' /\ pe_timer e' = pe_timer e) (pit_at (fw_t s) k) (pit_at (fw_t s) k).
Proof. destruct (pit_at (fw_t s) k); constructor. split; [apply like_refl|done]. Qed.
Lemma pits_same s s' : same_pits s s' -> forall k, option_Forall2 (fun e e' => like e e' /\ pe_timer e' = pe_timer e) (pit_at (fw_t s) k) (pit_at (fw_t s') k).
Proof. intros H k. rewrite H. apply pits_refl. Qed.

(** ** FIB *)
Lemma env_fib n v T s : Inv s -> tree_ok T -> fib_ok T -> only_fib_at n v (fw_t s) T ->
  (forall fe, v = Some fe -> fe_nexthops fe <> [] /\ forall h, h ∈ fe_nexthops fe -> is_Some (fw_faces s !! nh_face h)) ->
  env s (set_t T s).
Proof.
  intros I Ht Hf Ho Hv. pose proof (only_fib_frame _ _ _ _ Ho) as (Hfib & [Hp Hpn] & _ & [Hs _] & Hn).
  split; try done.
  - destruct I as [I1 I2 I3 I4 I5 I6 I7]. split; try done.
    + by eapply only_fib_inv.
    + simpl. by rewrite Hs.
    + intros k e. simpl. rewrite Hp. apply I3.
    + intros m fe. simpl. rewrite Hfib. case_decide; [apply Hv|apply I4].
  - apply pits_same. intros k. simpl. apply Hp.
  - simpl. by rewrite Hn.
Qed.
Lemma nh_cost_of l h : nexthops_ok l -> h ∈ l -> cost_of (nh_face h) l = Some (nh_cost h).
Proof. intros [_ Hn] Hh. apply cost_of_Some; [done|]. by destruct h. Qed.
Lemma cost_of_elem l f c : nexthops_ok l -> cost_of f l = Some c -> NextHop f c ∈ l.
Proof. intros [_ Hn] H. by apply cost_of_Some. Qed.

Section case3.
  Variable sort_nexthops : list nexthop -> list nexthop.
  Variable create_strategy : name -> create_result.
  Variable same_type : name -> name -> bool.
  Variable make_entry : name -> N -> Dnl_Model.fingerprint.
  Variable rand : nat -> nat.
  Variable face_order : list N -> list N.
  Variable strategies : name -> strategy.
  Hypothesis W : world_ok sort_nexthops same_type face_order.
  Notation event_fn := (fw_event sort_nexthops create_strategy same_type make_entry rand face_order strategies).

  Lemma new_hop_case p nh s s' u : Inv s -> on_new_next_hop rand face_order strategies p nh s = Some (s', u) -> rtc mstep s s'.
  Proof.
    intros I H. unfold on_new_next_hop in H. apply bind_Some in H as (s0 & s1 & [= <- <-] & H).
    set (l := affected p (fw_t s)) in H. clearbody l. revert s I H. induction l as [|k l IH]; intros s I H; simpl in H; [by injection H as <- <-|].
    apply bind_Some in H as (s1 & v & H1 & H). apply bind_Some in H1 as (s2 & st & Hst & H1). unfold strategy_for in Hst.
    destruct (effective (pk_name k) (fw_t s)) as [[q inst]|]; [|done]. injection Hst as <- <-.
    assert (Hr : rtc (anyk None k) s s1) by (eapply run_satoms; [exact (wo_order _ _ _ W)|done|done|exact H1]).
    etrans; [by eapply satoms_msteps|]. apply IH; [by eapply satoms_inv|done].
  Qed.

  (** adding a nexthop: the entry after the change, then the signal *)
  Lemma fib_add_case p f c s s' : Inv s -> fib_mgr_add sort_nexthops rand face_order strategies p f c s = Some (s', tt) ->
    s' = s \/ (length p <= 32 /\ is_Some (fw_faces s !! f) /\ exists T l, env s (set_t T s) /\ only_fib_at p (Some (FibEntry p l)) (fw_t s) T /\
      nexthops_ok l /\ (forall g, cost_of g l = if decide (g = f) then Some c else cost_of g (default [] (fe_nexthops <$> fib_at (fw_t s) p))) /\
      (s' = set_t T s \/ exists q nh, on_new_next_hop rand face_order strategies q nh (set_t T s) = Some (s', tt)) /\ rtc mstep (set_t T s) s').
  Proof.
    intros I H. unfold fib_mgr_add in H. change MAX_DEPTH with 32 in H. destruct (Nat.ltb_spec 32 (length p)) as [L|L]; [left; by injection H as <-|].
    apply bind_Some in H as (s0 & s1 & [= <- <-] & H). destruct (fw_faces s !! f) as [fc|] eqn:Ef; [|left; by injection H as <-]. right.
    pose proof (iv_tab _ I) as It. destruct (fib_insert_ok p (fw_t s) (ti_tree _ It) (ti_fib _ It) L) as (T1 & E1 & H1 & H2 & H3).
    apply bind_Some in H as (s1 & v & Hv & H). unfold tab in Hv. rewrite E1 in Hv. simpl in Hv. injection Hv as <- <-.
    set (fe := default (FibEntry p []) (fib_at (fw_t s) p)) in *.
    pose proof (only_fib_frame _ _ _ _ H3) as (Hfib & [Hp Hpn] & _ & [Hs _] & Hn).
    assert (Hfe : fib_at T1 p = Some fe) by (by rewrite Hfib, decide_True).
    destruct (fib_add_ok sort_nexthops p f c T1 (wo_sort _ _ _ W) H1 H2 fe Hfe) as (T2 & sig & l & E2 & G1 & G2 & G3 & G4 & G5 & G6 & G7).
    apply bind_Some in H as (s1 & sig' & Hv & H). simpl in Hv. rewrite E2 in Hv. injection Hv as <- <-.
    change (set_t T2 (set_t T1 s)) with (set_t T2 s) in H.
    assert (Ho : only_fib_at p (Some (FibEntry p l)) (fw_t s) T2).
    { destruct G3 as (A1 & A2 & A3 & A4 & A5), H3 as (B1 & B2 & B3 & B4 & B5). split; [|repeat split; congruence].
      intros k. rewrite A1, !B1. rewrite (decide_True (P := p = p)) by done. by destruct (decide (k = p)). }
    assert (Hfe' : fe_nexthops fe = default [] (fe_nexthops <$> fib_at (fw_t s) p)) by (unfold fe; by destruct (fib_at (fw_t s) p)).
    assert (He : env s (set_t T2 s)).
    { eapply env_fib; [done|done|done|exact Ho|]. intros fe' [= <-]. simpl. split.
      - intros ->. specialize (G5 f). rewrite decide_True in G5 by done. done.
      - intros h Hh. pose proof (nh_cost_of _ _ G4 Hh) as Hc. rewrite G5 in Hc. case_decide as Eg; [rewrite Eg; by eexists|].
        rewrite Hfe' in Hc. destruct (fib_at (fw_t s) p) as [fe0|] eqn:E0; simpl in Hc; [|done].
        apply cost_of_elem in Hc; [|apply (proj1 (ti_fib _ It) p fe0 E0)]. by apply (iv_fib _ I p fe0 E0) in Hc. }
    split; [done|]. split; [by eexists|]. exists T2, l. split; [done|]. split; [done|]. split; [done|]. split; [by rewrite <- Hfe'|].
    destruct sig as [[q nh]|]; [|injection H as <-; split; [by left|done]]. split; [right; by eexists _, _|]. eapply new_hop_case; [|exact H]. apply He.
  Qed.

  Lemma fib_remove_case p f s s' : Inv s -> fib_mgr_remove p f s = Some (s', tt) ->
    (s' = s /\ (fw_faces s !! f = None \/ cost_of f (default [] (fe_nexthops <$> fib_at (fw_t s) p)) = None)) \/
    exists T l fe, s' = set_t T s /\ env s s' /\ is_Some (fw_faces s !! f) /\ fib_at (fw_t s) p = Some fe /\
      only_fib_at p (match l with [] => None | _ => Some (FibEntry p l) end) (fw_t s) T /\
      nexthops_ok l /\ (forall g, cost_of g l = if decide (g = f) then None else cost_of g (fe_nexthops fe)).
  Proof.
    intros I H. unfold fib_mgr_remove in H. apply bind_Some in H as (s0 & s1 & [= <- <-] & H).
    destruct (fw_faces s !! f) as [fc|] eqn:Ef; [|left; injection H as <-; split; [done|by left]].
    change (fib_find p (fw_t s)) with (fib_at (fw_t s) p) in H.
    destruct (fib_at (fw_t s) p) as [fe|] eqn:E0; [|left; injection H as <-; split; [done|by right]].
    pose proof (iv_tab _ I) as It. destruct (fib_remove_ok p f (fw_t s) (ti_tree _ It) (ti_fib _ It) fe E0) as (T & res & E1 & H1 & H2 & H3).
    unfold tab in H. rewrite E1 in H. simpl in H. injection H as <-. destruct (cost_of f (fe_nexthops fe)) as [c|] eqn:Ec.
    - right. destruct H3 as (l & G1 & G2 & G3 & G4 & G5). exists T, l, fe. split; [done|].
      assert (Ho : only_fib_at p (match l with [] => None | _ => Some (FibEntry p l) end) (fw_t s) T) by (destruct l; [by apply G5|by apply G4]).
      split; [|done]. eapply env_fib; [done|done|done|exact Ho|]. intros fe' Hfe'. destruct l as [|h0 l0]; [done|]. injection Hfe' as <-. simpl. split; [done|].
      intros h Hh. pose proof (nh_cost_of _ _ G1 Hh) as Hc. rewrite G2 in Hc. case_decide; [done|].
      apply cost_of_elem in Hc; [|apply (proj1 (ti_fib _ It) p fe E0)]. by apply (iv_fib _ I p fe E0) in Hc.
    - left. destruct H3 as [_ ->]. split; [by destruct s|]. right. done.
  Qed.

  (** ** Strategy choice *)
  Lemma env_info T s : Inv s -> tree_ok T -> sc_ok T -> fib_n T = fib_n (fw_t s) /\ pit_n T = pit_n (fw_t s) /\ meas_n T = meas_n (fw_t s) /\ now T = now (fw_t s) ->
    is_Some (sc_at T []) -> info_rule same_type (fw_t s) T -> env s (set_t T s).
  Proof.
    intros I Ht Hs Hn Hroot Hr.
    assert (Hp : forall k, option_Forall2 (fun e e' => like e e' /\ pe_timer e' = pe_timer e) (pit_at (fw_t s) k) (pit_at T k)).
    { intros k. rewrite !pit_at_att. destruct (Hr (pit_nte (pk_name k))) as (b & _ & ->).
      assert (Hb : e_pit (set_sc (sc_at T (pit_nte (pk_name k))) (if b then att (fw_t s) (pit_nte (pk_name k)) else clear_info (att (fw_t s) (pit_nte (pk_name k))))) =
        map (if b then id else clear_pit_entry) (e_pit (att (fw_t s) (pit_nte (pk_name k))))) by (destruct b; simpl; [by rewrite map_id|done]).
      rewrite Hb. assert (Hkf := key_find_map k (if b then id else clear_pit_entry) (e_pit (att (fw_t s) (pit_nte (pk_name k)))) ltac:(intros pe; by destruct b)).
      unfold key_find in Hkf. rewrite Hkf. clear Hkf Hb. destruct (List.find _ _) as [e|]; simpl; constructor.
      destruct b; simpl; [split; [apply like_refl|done]|]. split; [|done]. split; try done; simpl.
      - apply like_in_map. by intros r.
      - apply like_out_map. by intros r. }
    split; try done; simpl.
    - destruct I as [I1 I2 I3 I4 I5 I6 I7]. split; try done; simpl.
      + by eapply info_rule_inv.
      + intros k e' He'. specialize (Hp k). rewrite He' in Hp. inversion Hp as [e e0 [L _] He|]; subst. eapply like_fine; [exact L|]. eapply I3. by symmetry.
      + intros n fe. rewrite fib_at_att. destruct (Hr n) as (b & _ & ->). intros H. apply (I4 n). rewrite fib_at_att. by destruct b.
    - apply Hn.
    - destruct Hn as (_ & _ & _ & ->). done.
  Qed.

  (** ** All other events *)
  Definition plain (ev : event) : Prop :=
    match ev with
    | EvInterest _ _ | EvData _ _ | EvNack _ _ _ | EvPitTimer _ | EvFaceRemove _ => False
    | _ => True
    end.
  Lemma env_field s s' : Inv s -> fw_t s' = fw_t s -> fw_faces s' = fw_faces s -> fw_last s' = fw_last s -> (exists limit, Cs_Spec.reach_wf limit (fw_cs s')) ->
    fw_log s' = fw_log s -> fw_cnt s' = fw_cnt s -> env s s'.
  Proof.
    intros [I1 I2 I3 I4 I5 I6 I7] Ht Hf Hl Hc Hlog Hcnt.
    assert (Hp : same_pits s s') by (intros k; by rewrite Ht).
    split; try done; rewrite ?Ht, ?Hf, ?Hl; try done.
    - split; rewrite ?Ht, ?Hf, ?Hl; done.
    - intros k. apply pits_refl.
  Qed.

  Lemma face_add_case fc id last s s' : Inv s -> face_add_impl fc id last s = Some (s', tt) -> (id <= last)%N -> (fw_last s <= last < 2 ^ 64)%N ->
    fw_faces s !! id = None /\ s' = set_faces (<[id := fc]> (fw_faces s)) last s /\ env s s'.
  Proof.
    intros [I1 I2 I3 I4 I5 I6 I7] H Hid Hlast. unfold face_add_impl in H. destruct (fw_faces s !! id) as [x|] eqn:E; [done|]. injection H as <-. split; [done|]. split; [done|].
    assert (Hin : forall g, is_Some (fw_faces s !! g) -> is_Some (<[id := fc]> (fw_faces s) !! g)).
    { intros g Hg. rewrite lookup_insert_is_Some. destruct (decide (id = g)); [by left|by right]. }
    split; try done; simpl.
    - split; try done; simpl.
      + intros k e He. destruct (I3 k e He) as [E1 E2 E3 E4]. split; auto.
      + intros n fe Hfe. destruct (I4 n fe Hfe) as [Hne Hh]. split; [done|]. intros h ?. apply Hin. by apply Hh.
      + intros g [->|[_ Hg]]%lookup_insert_is_Some; [done|]. specialize (I5 g Hg). lia.
      + lia.
    - intros k. apply pits_refl.
    - apply insert_subseteq. done.
    - lia.
  Qed.

  Lemma face_add_next fc s s' : Inv s -> face_add fc s = Some (s', tt) ->
    s' = set_faces (<[(fw_last s + 1)%N := fc]> (fw_faces s)) (fw_last s + 1) s /\ fw_faces s !! (fw_last s + 1)%N = None /\ (fw_last s + 1 < 2 ^ 64)%N /\ env s s'.
  Proof.
    intros I H. unfold face_add in H. apply bind_Some in H as (s0 & s1 & [= <- <-] & H).
    unfold FACEID_RESERVED_MAX in H. destruct (N.leb_spec (inc64 (fw_last s)) 255) as [L|L]; [done|].
    pose proof (iv_last _ I) as Hl. unfold inc64, U64 in *.
    assert (Hlt : (fw_last s + 1 < 2 ^ 64)%N).
    { destruct (N.lt_ge_cases (fw_last s + 1) (2 ^ 64)) as [?|Hge]; [done|]. exfalso. replace (fw_last s + 1)%N with (2 ^ 64)%N in L by lia. rewrite N.mod_same in L by done. lia. }
    rewrite N.mod_small in H, L by done. destruct (face_add_case _ _ _ _ _ I H) as (H1 & H2 & H3); [lia|lia|]. done.
  Qed.
  Lemma face_add_reserved_case fc id s s' : Inv s -> face_add_reserved fc id s = Some (s', tt) ->
    (id <= 255)%N /\ fw_faces s !! id = None /\ s' = set_faces (<[id := fc]> (fw_faces s)) (fw_last s) s /\ env s s'.
  Proof.
    intros I H. unfold face_add_reserved in H. apply bind_Some in H as (s0 & s1 & [= <- <-] & H).
    unfold FACEID_RESERVED_MAX in H. destruct (N.ltb_spec 255 id) as [L|L]; [done|]. pose proof (iv_last _ I) as Hl.
    destruct (face_add_case _ _ _ _ _ I H) as (H1 & H2 & H3); [lia|lia|]. done.
  Qed.

  Lemma tick_case d s : Inv s -> (0 <= d)%Z -> env s (set_t (tick d (fw_t s)) s).
  Proof.
    intros I Hd. pose proof (iv_tab _ I) as It.
    destruct (tick_ok d (fw_t s) (ti_tree _ It) (ti_meas _ It) Hd) as (T1 & T2 & T3 & T4 & T5 & T6 & T7 & T8).
    assert (Hp : same_pits s (set_t (tick d (fw_t s)) s)).
    { intros k. simpl. rewrite !pit_at_att. by destruct (T5 (pit_nte (pk_name k))) as (_ & -> & _). }
    destruct I as [I1 I2 I3 I4 I5 I6 I7]. split; try done; simpl.
    - split; try done; simpl.
      + destruct (step_ok sort_nexthops create_strategy same_type (wo_sort _ _ _ W) (wo_type _ _ _ W) (fw_t s) (OTick d) It) as (T' & HT & IT); [done|].
        simpl in HT. injection HT as <-. exact IT.
      + rewrite sc_at_att. destruct (T5 []) as (_ & _ & ->). by rewrite <- sc_at_att.
      + intros k e He. apply (I3 k). rewrite <- He. symmetry. apply (Hp k).
      + intros n fe. rewrite fib_at_att. destruct (T5 n) as (-> & _). rewrite <- fib_at_att. apply I4.
    - intros k. apply (pits_same s (set_t (tick d (fw_t s)) s) Hp).
    - rewrite T3. lia.
  Qed.

  (** events that neither run a strategy nor touch a pending Interest *)
  Definition still (ev : event) : Prop := match ev with EvAsync _ _ _ | EvFibAdd _ _ _ => False | _ => plain ev end.
  Lemma env_refl s : Inv s -> env s s.
  Proof. intros I. split; try done. intros k. destruct (pit_at (fw_t s) k) as [e|]; constructor. by split; [apply like_refl|]. Qed.
  Lemma still_cases s ev s' : Inv s -> ev_ok s ev -> still ev -> event_fn ev s = Some (s', tt) -> env s s'.
  Proof.
    intros I Ho Hp H. pose proof (iv_tab _ I) as It.
    destruct ev as [f i|f d|f i r|k|inst arg k|p f c|p f|p req|p|fc|fc id|f|l|p|h|o| | |d]; try done; simpl in H.
    - apply fib_remove_case in H as [[-> _]|(T & l & fe & -> & He & _)]; [by apply env_refl| |done]. done.
    - destruct (sc_insert_ok create_strategy same_type (wo_type _ _ _ W) p req (fw_t s) (ti_tree _ It) (ti_sc _ It) (iv_root _ I)) as (T & res & E & H1 & H2 & H3 & H4 & H5 & H6).
      unfold tab in H. rewrite E in H. simpl in H. injection H as <-.
      assert (Hd : res = SC_OK \/ res <> SC_OK) by (destruct res; ((by left) || (by right))). destruct Hd as [Hd|Hd].
      + destruct (H6 Hd) as (x & _ & Hq & Hr). apply env_info; [done|done|done|done| |done]. rewrite Hq. case_decide; [by eexists|apply I].
      + rewrite (H5 Hd). apply env_field; try done. apply I.
    - destruct (sc_erase_ok create_strategy same_type (wo_type _ _ _ W) p (fw_t s) (ti_tree _ It) (ti_sc _ It) (iv_root _ I) Ho) as (T & E & H1 & H2 & H3 & H4 & H5).
      unfold tab in H. rewrite E in H. injection H as <-. apply env_info; [done|done|done|done| |done]. rewrite H4. case_decide; [by subst|apply I].
    - apply face_add_next in H as (_ & _ & _ & He); [|done]. done.
    - apply face_add_reserved_case in H as (_ & _ & _ & He); [|done]. done.
    - injection H as <-. apply env_field; try done. apply I.
    - injection H as <-. apply env_field; try done. apply I.
    - injection H as <-. apply env_field; try done. apply I.
    - destruct (Cs_Model.cs_step (fw_cs s) o) as [[c r]|] eqn:E; [|done]. injection H as <-. apply env_field; try done.
      destruct (iv_cs _ I) as [limit Hl]. exists limit. simpl. eapply reach_step; [exact Hl| |exact E]. destruct o; try done. apply Ho.
    - injection H as <-. apply env_field; try done. apply I.
    - injection H as <-. apply env_field; try done. apply I.
    - unfold tab in H. injection H as <-. by apply tick_case.
  Qed.

  Lemma other_cases s ev s' : Inv s -> ev_ok s ev -> plain ev -> event_fn ev s = Some (s', tt) -> rtc mstep s s'.
  Proof.
    intros I Ho Hp H.
    assert (Henv : still ev -> rtc mstep s s') by (intros Hst; apply rtc_once, mt_env; by eapply still_cases).
    destruct ev as [f i|f d|f i r|k|inst arg k|p f c|p f|p req|p|fc|fc id|f|l|p|h|o| | |d]; try done; try (by apply Henv); simpl in H.
    - eapply satoms_msteps. eapply run_satoms; [exact (wo_order _ _ _ W)|done|done|exact H].
    - apply fib_add_case in H as [->|(_ & _ & T & l & He & _ & _ & _ & _ & Hr)]; [done| |done]. econstructor; [by apply mt_env|exact Hr].
  Qed.

  (** ** The expiry timer *)
  Record finalized (k : pit_key) (e : pit_entry) (s s' : fw) : Prop := {
    fz_inv : Inv s';
    fz_config : same_config s s';
    fz_entry : pit_at (fw_t s) k = Some e;
    fz_cs : fw_cs s' = fw_cs s;
    fz_pits : forall k', pit_at (fw_t s') k' = if decide (k' = k) then None else pit_at (fw_t s) k';
    fz_n : pit_n (fw_t s') = dec64 (pit_n (fw_t s));
    fz_log : fw_log s' = fw_log s;
    fz_cnt : fw_cnt s' = (if pe_satisfied e then inc_satisfied else inc_unsatisfied) (fw_cnt s);
    fz_dnl : exists s1, insert_dead_nonce_list make_entry rand k None s = Some (s1, tt) /\ fw_dnl s' = fw_dnl s1;
  }.
  Lemma timer_case k s s' : Inv s -> on_interest_finalize make_entry rand k s = Some (s', tt) -> exists e, finalized k e s s'.
  Proof.
    intros I H. unfold on_interest_finalize in H. apply bind_Some in H as (s1 & [] & H1 & H).
    pose proof H1 as (d & n & Hs1)%dnl_step. assert (I1 : Inv s1) by (subst s1; by apply Inv_dnl, Inv_rand).
    assert (Ht1 : fw_t s1 = fw_t s) by (by subst s1).
    apply bind_Some in H as (s2 & e & [-> He]%entry_Some & H). rewrite Ht1 in He. exists e.
    apply bind_Some in H as (s2 & v & [= <- <-] & H). set (g := if pe_satisfied e then inc_satisfied else inc_unsatisfied) in *.
    unfold tab in H. change (fw_t (set_cnt (g (fw_cnt s1)) s1)) with (fw_t s1) in H. rewrite Ht1 in H.
    pose proof (iv_tab _ I) as It. destruct (pit_erase_ok k (fw_t s) (ti_tree _ It) (ti_pit _ It)) as (T & l & E & H2 & H3 & H4 & H5 & H6); [by exists e|].
    rewrite E in H. injection H as <-. pose proof (only_pit_frame _ _ _ _ H4) as (_ & [Hf _] & _ & [Hs _] & Hn).
    assert (Hc : same_config s (set_t T (set_cnt (g (fw_cnt s1)) s1))) by (subst s1; by split).
    split; try done; simpl.
    - destruct I as [J1 J2 J3 J4 J5 J6 J7]. split; subst s1; simpl; try done.
      + by eapply only_pit_inv.
      + by rewrite Hs.
      + intros k' e'. rewrite H5. case_decide; [done|apply J3].
      + intros m fe. rewrite Hf. apply J4.
    - by subst s1.
    - by subst s1.
    - by subst s1.
    - exists s1. by split.
  Qed.

  (** ** Removal of a face *)
  Record unfaced (f : N) (s s' : fw) : Prop := {
    uf_inv : Inv s';
    uf_eq : exists T, s' = set_faces (delete f (fw_faces s)) (fw_last s) (set_t T s);
    uf_pits : forall k, pit_at (fw_t s') k = delete_in_out f <$> pit_at (fw_t s) k;
    uf_n : pit_n (fw_t s') = pit_n (fw_t s);
    uf_fib : forall n, fib_at (fw_t s') n = match fib_at (fw_t s) n with Some fe => fib_without f fe | None => None end;
    uf_sc : forall n, sc_at (fw_t s') n = sc_at (fw_t s) n;
    uf_meas : forall n, meas_at (fw_t s') n = meas_at (fw_t s) n;
    uf_now : now (fw_t s') = now (fw_t s);
  }.
  Lemma delete_in_elem f l r : r ∈ delete_in f l -> r ∈ l.
  Proof.
    induction l as [|x l IH]; simpl; [done|]. destruct (fr_face (ir_rec x) =? f)%N; [by right|]. intros [->|?]%elem_of_cons; [by left|right; by apply IH].
  Qed.
  Lemma delete_out_elem f l r : r ∈ delete_out f l -> r ∈ l.
  Proof.
    induction l as [|x l IH]; simpl; [done|]. destruct (fr_face (or_rec x) =? f)%N; [by right|]. intros [->|?]%elem_of_cons; [by left|right; by apply IH].
  Qed.
  Lemma delete_in_gone f l r : NoDup (rec_faces_in l) -> r ∈ delete_in f l -> fr_face (ir_rec r) <> f.
  Proof.
    intros Hn Hr Hf. destruct (delete_in_ok f l Hn) as (H1 & H2 & _). pose proof (elem_find_in _ _ H1 Hr) as Hx. rewrite Hf, H2, decide_True in Hx; done.
  Qed.
  Lemma delete_out_gone f l r : NoDup (rec_faces_out l) -> r ∈ delete_out f l -> fr_face (or_rec r) <> f.
  Proof.
    intros Hn Hr Hf. destruct (delete_out_ok f l Hn) as (H1 & H2 & _). pose proof (elem_find_out _ _ H1 Hr) as Hx. rewrite Hf, H2, decide_True in Hx; done.
  Qed.
  Lemma face_remove_case f s s' : Inv s -> face_remove f s = Some (s', tt) -> unfaced f s s' /\ is_Some (fw_faces s !! f).
  Proof.
    intros I H. unfold face_remove in H. apply bind_Some in H as (s0 & fc & [-> Hfc]%face_of_Some & H). split; [|by eexists].
    pose proof (iv_tab _ I) as It. apply bind_Some in H as (s0 & v & Hv & H). unfold tab in Hv.
    destruct (cleanup_ok f (fw_t s) (ti_tree _ It) (ti_fib _ It)) as (T & E & T1 & T2 & T3 & T4 & T5 & T6 & T7 & T8).
    rewrite E in Hv. injection Hv as <- <-. injection H as <-.
    assert (Hpit : forall k, pit_at T k = delete_in_out f <$> pit_at (fw_t s) k).
    { intros k. rewrite !pit_at_att, T3, cleanup_pit. by apply key_find_map. }
    assert (Hfib : forall n, fib_at T n = match fib_at (fw_t s) n with Some fe => fib_without f fe | None => None end).
    { intros n. by rewrite !fib_at_att, T3, cleanup_fib. }
    assert (Hsc : forall n, sc_at T n = sc_at (fw_t s) n) by (intros n; by rewrite !sc_at_att, T3, cleanup_sc).
    split; try done; simpl.
    - pose proof I as [J1 J2 J3 J4 J5 J6 J7]. split; simpl; try done.
      + destruct (step_ok sort_nexthops create_strategy same_type (wo_sort _ _ _ W) (wo_type _ _ _ W) (fw_t s) (OFaceGone f) It) as (T' & HT & IT); [done|].
        simpl in HT. rewrite E in HT. by injection HT as <-.
      + by rewrite Hsc.
      + intros k e. rewrite Hpit. destruct (pit_at (fw_t s) k) as [e0|] eqn:E0; [|done]. intros [= <-]. destruct (J3 k e0 E0) as [E1 E2 E3 E4].
        destruct (entry_ok _ _ _ I E0) as [[N1 N2 _ _] _]. split; simpl.
        * intros r Hr. rewrite lookup_delete_ne; [|intros Hx; by apply (delete_in_gone f _ r N1 Hr)]. by apply E1, (delete_in_elem f).
        * intros r Hr. rewrite lookup_delete_ne; [|intros Hx; by apply (delete_out_gone f _ r N2 Hr)]. by apply E2, (delete_out_elem f).
        * done.
        * intros r Hr. by apply E4, (delete_in_elem f).
      + intros n fe. rewrite Hfib. destruct (fib_at (fw_t s) n) as [fe0|] eqn:E0; [|done]. destruct (J4 n fe0 E0) as [Hne Hh].
        pose proof (proj2 (proj1 (ti_fib _ It) n fe0 E0)) as Hok. pose proof (remove_nexthop_ok f _ Hok) as Hr. unfold fib_without.
        destruct (remove_nexthop f (fe_nexthops fe0)) as [[|h0 l]|]; [done| |].
        * destruct Hr as (_ & Hok' & Hc & _). intros [= <-]. simpl. split; [done|]. intros h Hh'. pose proof (nh_cost_of _ _ Hok' Hh') as Hx. rewrite Hc in Hx.
          case_decide as Eq; [done|]. rewrite lookup_delete_ne by done. apply cost_of_elem in Hx; [|done]. by apply Hh in Hx.
        * intros [= <-]. split; [done|]. intros h Hh'. pose proof (nh_cost_of _ _ Hok Hh') as Hx. rewrite lookup_delete_ne; [by apply Hh|].
          intros ->. rewrite Hr in Hx. done.
      + intros g Hg. apply J5. rewrite lookup_delete_is_Some in Hg. apply Hg.
    - by exists T.
    - intros n. rewrite !meas_at_att, T3. apply cleanup_meas.
  Qed.
End case3.
