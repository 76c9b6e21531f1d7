(** Exactly what each event adds to the dead nonce list *)
From stdpp Require Import gmap.
From Verif Require Import Lib Name_Model Packet_Model Nt_Model Nt_Spec Tree_Model Tab_Model Tab_Spec Tab_At Tab_Pit Fw_Model Fw_Spec Fw_Inv Fw_Case Fw_Case2 Fw_Case3 Fw_Hist Fw_Acc Fw_Step Fw_Out Fw_Main Fw_Data Fw_Calm.
From Verif Require Cs_Model Cs_Spec Dnl_Model Dnl_Spec Dnl_Proof.

(** the dead nonce list [d'] is [d] with the pairs [l] added, in that order; [Dnl_Model.Add]'s third argument is the
    random number that decides whether a marker is also added *)
Definition buried (make_entry : name -> N -> Dnl_Model.fingerprint) (l : list (name * N)) (d d' : Dnl_Model.dnl) : Prop :=
  exists t, d' = Dnl_Model.dnl_run make_entry d t /\ Forall2 (fun p o => exists c, o = Dnl_Model.Add (fst p) (snd p) c) l t.
Lemma buried_nil me d : buried me [] d d.
Proof. by exists []. Qed.
Lemma buried_app me l1 l2 d1 d2 d3 : buried me l1 d1 d2 -> buried me l2 d2 d3 -> buried me (l1 ++ l2) d1 d3.
Proof.
  intros (t1 & -> & H1) (t2 & -> & H2). exists (t1 ++ t2). split; [unfold Dnl_Model.dnl_run; by rewrite foldl_app|]. by apply Forall2_app.
Qed.
Lemma buried_has me h d d' l : Dnl_Spec.dnl_after me h d -> buried me l d d' -> length l <= 1024 -> forall n x, (n, x) ∈ l -> Dnl_Model.dnl_has me d' n x = true.
Proof.
  intros Hh (t & -> & Ht) Hlen n x (l1 & l2 & ->)%elem_of_list_split. apply Forall2_app_inv_l in Ht as (t1 & t2 & Ht1 & Ht2 & ->).
  inversion Ht2 as [|p o l0 t3 (c & ->) Ht3]; subst. simpl. unfold Dnl_Model.dnl_run. rewrite foldl_app.
  assert (Ha : Dnl_Spec.dnl_after me (h ++ t1) (Dnl_Model.dnl_run me d t1)).
  { destruct Hh as (k & d0 & H0 & Hd). exists k, d0. split; [done|]. unfold Dnl_Model.dnl_run in *. by rewrite foldl_app, Hd. }
  apply (Dnl_Proof.retained_min me _ _ _ _ c t3 Ha). apply Forall2_length in Ht3.
  assert (Hn : forall t, Dnl_Spec.n_inserts t <= length t) by (intros t; unfold Dnl_Spec.n_inserts; apply filter_length).
  specialize (Hn t3). rewrite app_length in Hlen. simpl in Hlen. lia.
Qed.

Lemma like_find_out f l l' : Forall2 like_out l l' -> (fun r => fr_nonce (or_rec r)) <$> find_out f l' = (fun r => fr_nonce (or_rec r)) <$> find_out f l.
Proof.
  induction 1 as [|r r' l l' [(H1 & H2 & H3 & H4) _] H IH]; [done|]. unfold find_out in *. simpl.
  rewrite H1. destruct (_ =? f)%N; [|done]. simpl. by f_equal.
Qed.
Lemma data_atoms trig k d f s s' e : rtc (satom trig k (AData d f)) s s' -> pit_at (fw_t s) k = Some e ->
  fw_dnl s' = fw_dnl s /\ exists e', pit_at (fw_t s') k = Some e' /\ pe_out e' = pe_out e /\ pe_interest e' = pe_interest e.
Proof.
  intros H. revert e. induction H as [s|s s1 s' H1 H2 IH]; intros e He; [split; [done|by exists e]|].
  assert (Hs : fw_dnl s1 = fw_dnl s /\ exists e', pit_at (fw_t s1) k = Some e' /\ pe_out e' = pe_out e /\ pe_interest e' = pe_interest e).
  { destruct H1 as [? C T E|e0 e' ? C T E L Hn|e0 e' ms ? C T E L Hn|e0 i j src nonce nd f1 fc ? C T Hs Hd Hj Hf Hh E Hn|src nonce nd f1 ? C E
      |e0 r d1 f0 f1 fc _ C T Hr Hm Hf Hl E Hn|e0 r d1 f0 f1 fc _ C T Hr Hm Hf Hl Hl' E Hn|e0 r f1 fc reason ? C T Hr Hf Hl E Hn]; try done;
      (split; [apply C|]); destruct E as [E1 E2]; rewrite E1 in He; injection He as <-; eexists; (split; [by rewrite E2, decide_True|done]). }
  destruct Hs as [D1 (e1 & He1 & O1 & I1)]. destruct (IH _ He1) as [D2 (e2 & He2 & O2 & I2)]. split; [congruence|]. exists e2. split; [done|]. split; congruence.
Qed.

(** the FreshnessPeriod [ms] is below the 6 s for which a dead Nonce is kept; the comparison is in nanoseconds, 64 bits wide
    (below 292 years that makes no difference: [brief_small]) *)
Definition brief (ms : Z) : Prop := (ns_of_ms ms < 6000000000)%Z.
Lemma brief_small ms : (0 <= ms <= 9223372036854)%Z -> brief ms <-> (ms < 6000)%Z.
Proof. intros H. unfold brief, ns_of_ms, wrap64, NS_PER_MS. rewrite Z.mod_small by lia. lia. Qed.
Global Instance brief_dec ms : Decision (brief ms).
Proof. unfold brief. apply _. Defined.

(** a Nonce that is added when Data [d] arrives from [f]: what was sent to [f] for an entry that [d] satisfies, if the entry asks
    for fresh Data and [d] is fresh for less than 6 s *)
Definition dies (s : fw) (f : N) (d : data) (n : name) (x : N) : Prop :=
  (localhost (d_name d) -> local_face s f) /\
  exists k r, out_record_of s k f r /\ satisfies k d /\ pk_mbf k = true /\ brief (d_fresh d) /\ n = pk_name k /\ x = fr_nonce (or_rec r).

Section dead.
  Variable sort_nexthops : list nexthop -> list nexthop.
  Variable create_strategy : name -> create_result.
  Variable same_type : name -> name -> bool.
  Variable make_entry : name -> N -> Dnl_Model.fingerprint.
  Variable rand : nat -> nat.
  Variable face_order : list N -> list N.
  Variable strategies : name -> strategy.
  Hypothesis W : world_ok sort_nexthops same_type face_order.
  Notation event_fn := (fw_event sort_nexthops create_strategy same_type make_entry rand face_order strategies).
  Notation step := (fw_step sort_nexthops create_strategy same_type make_entry rand face_order strategies).
  Notation buried := (buried make_entry).

  (** ** The rest leaves the list alone *)
  Definition keeps {A} (m : M A) : Prop := forall s s' a, m s = Some (s', a) -> fw_dnl s' = fw_dnl s.
  Lemma keeps_ret {A} (a : A) : keeps (ret a).
  Proof. by intros s s' b [= <- <-]. Qed.
  Lemma keeps_fail {A} : keeps (@fail A).
  Proof. done. Qed.
  Lemma keeps_bind {A B} (m : M A) (q : A -> M B) : keeps m -> (forall a, keeps (q a)) -> keeps (bind m q).
  Proof. intros Hm Hq s s' b (s1 & a & H1 & H2)%bind_Some. rewrite (Hq _ _ _ _ H2). by eapply Hm. Qed.
  Lemma keeps_get : keeps get.
  Proof. by intros s s' b [= <- <-]. Qed.
  Lemma keeps_put g : (forall s, fw_dnl (g s) = fw_dnl s) -> keeps (put g).
  Proof. intros H s s' b [= <- <-]. apply H. Qed.
  Lemma keeps_tab g : keeps (tab g).
  Proof. intros s s' b. unfold tab. destruct (g (fw_t s)); [|done]. by intros [= <- <-]. Qed.
  Lemma keeps_each {A} (l : list A) q : (forall a, keeps (q a)) -> keeps (each l q).
  Proof. intros H. induction l; simpl; [apply keeps_ret|]. apply keeps_bind; [done|]. by intros _. Qed.
  Lemma keeps_entry k : keeps (entry k).
  Proof. intros s s' b. unfold entry. destruct (pit_get _ _); [|done]. by intros [= <- <-]. Qed.
  Lemma keeps_face f : keeps (face_of f).
  Proof. intros s s' b. unfold face_of. destruct (_ !! _); [|done]. by intros [= <- <-]. Qed.
  Lemma keeps_upd k g : keeps (upd_entry k g).
  Proof. apply keeps_bind; [apply keeps_entry|]. intros _. apply keeps_tab. Qed.
  Lemma keeps_rand rnd : keeps (next_rand rnd).
  Proof. by intros s s' b [= <- <-]. Qed.
  Lemma keeps_strategy st n : keeps (strategy_for st n).
  Proof. intros s s' b. unfold strategy_for. destruct (effective _ _) as [[? ?]|]; [|done]. by intros [= <- <-]. Qed.
  Lemma keeps_insert d u : keeps (cs_insert d u).
  Proof. intros s s' b. unfold cs_insert. destruct (Cs_Model.cs_insert _ _ _ _); [|done]. by intros [= <- <-]. Qed.
  Lemma keeps_pit_insert i : keeps (fun s => match pit_insert i (fw_t s) with Some (T, e, is_new) => Some (set_t T s, (e, is_new)) | None => None end).
  Proof. intros s s' x. destruct (pit_insert _ _) as [[[? ?] ?]|]; [|done]. by intros [= <- <-]. Qed.
  Lemma keeps_find i : keeps (fun s => match Cs_Model.cs_find (now (fw_t s)) i (fw_cs s) with Some (c, r) => Some (set_cs c s, r) | None => None end).
  Proof. intros s s' x. destruct (Cs_Model.cs_find _ _ _) as [[? ?]|]; [|done]. by intros [= <- <-]. Qed.
  Ltac kps := repeat first
    [ apply keeps_ret | apply keeps_fail | apply keeps_get | apply keeps_tab | apply keeps_entry
    | apply keeps_face | apply keeps_upd | apply keeps_rand | apply keeps_strategy | apply keeps_insert | apply keeps_pit_insert | apply keeps_find
    | (apply keeps_put; by intros ?) | (apply keeps_bind; [|intros ?]) | (apply keeps_each; intros ?) | done | case_match ].
  Lemma keeps_out_data d tok g : keeps (on_outgoing_data d tok g).
  Proof. unfold on_outgoing_data. kps. Qed.
  Lemma keeps_send_data d tok g k : keeps (send_data d tok g k).
  Proof. unfold send_data. kps; try apply keeps_out_data. Qed.
  Lemma keeps_all d f k : keeps (send_data_to_all face_order d f k).
  Proof. unfold send_data_to_all. kps; try apply keeps_send_data. Qed.
  Lemma keeps_out_interest i g k : keeps (on_outgoing_interest i g k).
  Proof. unfold on_outgoing_interest. kps. Qed.
  Lemma keeps_out_nack r g k : keeps (on_outgoing_nack r g k).
  Proof. unfold on_outgoing_nack. kps. Qed.
  Lemma keeps_set_expiry k ms : keeps (set_expiry k ms).
  Proof. unfold set_expiry. kps. Qed.
  Lemma keeps_run trig k p : keeps (run rand face_order trig k p).
  Proof.
    induction p; simpl; kps; eauto; unfold the_interest; kps; try apply keeps_out_interest; try apply keeps_all; try apply keeps_out_nack; try apply keeps_set_expiry.
  Qed.
  Lemma keeps_loop i f : keeps (on_interest_loop strategies i f).
  Proof. unfold on_interest_loop. kps. Qed.
  Lemma keeps_miss i f k new : keeps (on_cs_miss rand face_order strategies i f k new).
  Proof. unfold on_cs_miss. kps; try first [apply keeps_set_expiry|apply keeps_out_interest|apply keeps_run]. Qed.
  Lemma keeps_hit i f k d : keeps (on_cs_hit strategies i f k d).
  Proof. unfold on_cs_hit, mark_satisfied. kps; try first [apply keeps_set_expiry|apply keeps_send_data]. Qed.
  Lemma keeps_interest i f : keeps (on_incoming_interest make_entry rand face_order strategies i f).
  Proof. unfold on_incoming_interest. kps; try apply keeps_loop; try apply keeps_hit; try apply keeps_miss; try apply keeps_run. Qed.
  Lemma keeps_nack i r f : keeps (on_incoming_nack rand face_order strategies i r f).
  Proof. unfold on_incoming_nack. kps; try first [apply keeps_set_expiry|apply keeps_run]. Qed.
  Lemma keeps_newhop p nh : keeps (on_new_next_hop rand face_order strategies p nh).
  Proof. unfold on_new_next_hop. kps; try apply keeps_run. Qed.
  Lemma keeps_fib_add p f c : keeps (fib_mgr_add sort_nexthops rand face_order strategies p f c).
  Proof.
    unfold fib_mgr_add. kps; try apply keeps_newhop; try apply keeps_run. intros s s' x. destruct (fib_add_nexthop _ _ _ _ _) as [[? ?]|]; [|done]. by intros [= <- <-].
  Qed.
  (** the events that touch the dead nonce list *)
  Definition on_dead (ev : event) : Prop := match ev with EvData _ _ | EvPitTimer _ | EvDnlMark | EvDnlAdjust => True | _ => False end.
  Lemma event_keeps s ev s' : ~ on_dead ev -> step s ev = Some s' -> fw_dnl s' = fw_dnl s.
  Proof.
    intros Hn H%step_event. assert (Hf : keeps (event_fn ev)); [|by eapply Hf].
    destruct ev; simpl in *; try (by destruct Hn);
      try first [apply keeps_interest|apply keeps_nack|apply keeps_run|apply keeps_fib_add]; kps.
    - unfold face_add. kps. intros s1 s2 x. unfold face_add_impl. case_match; [done|]. by intros [= <- <-].
    - unfold face_add_reserved. kps. intros s1 s2 x. unfold face_add_impl. case_match; [done|]. by intros [= <- <-].
    - intros s1 s2 x. destruct (Cs_Model.cs_step (fw_cs s1) o) as [[? ?]|]; [|done]. by intros [= <- <-].
  Qed.
  Lemma mark_exact s s' : step s EvDnlMark = Some s' -> fw_dnl s' = Dnl_Model.dnl_mark (fw_dnl s).
  Proof. intros H%step_event. simpl in H. by injection H as <-. Qed.
  Lemma adjust_exact s s' : step s EvDnlAdjust = Some s' -> fw_dnl s' = Dnl_Model.dnl_adjust (fw_dnl s).
  Proof. intros H%step_event. simpl in H. by injection H as <-. Qed.

  (** ** What is added *)
  Definition short (e : pit_entry) : bool := negb (pe_satisfied e) || (i_mbf (pe_interest e) && (ns_of_ms (pe_fresh e) <? DNL_LIFETIME)%Z).
  Lemma insert_exact k up s s' u : insert_dead_nonce_list make_entry rand k up s = Some (s', u) -> exists e, pit_at (fw_t s) k = Some e /\
    buried (if short e then pair (pk_name k) <$> dnl_nonces up e else []) (fw_dnl s) (fw_dnl s').
  Proof.
    unfold insert_dead_nonce_list. intros (s1 & e & [-> He]%entry_Some & H)%bind_Some. exists e. split; [done|]. destruct (pe_satisfied e && _); [done|].
    fold (short e) in H. destruct (short e); [|injection H as <- <-; apply buried_nil].
    revert s He H. generalize (dnl_nonces up e). induction l as [|x l IH]; intros s He H; simpl in H.
    - injection H as <- <-. apply buried_nil.
    - apply bind_Some in H as (s1 & v & Hm & H). apply bind_Some in Hm as (s2 & c & [= <- <-] & [= <- <-]).
      eapply (buried_app _ [(pk_name k, x)]); [|eapply IH; [|exact H]; exact He]. exists [Dnl_Model.Add (pk_name k) x (rand (fw_rand s))]. split; [done|]. constructor; [by eexists|done].
  Qed.

  Definition of_entry (f : N) (d : data) (k : pit_key) (e : pit_entry) : list (name * N) :=
    if i_mbf (pe_interest e) && bool_decide (brief (d_fresh d)) then match find_out f (pe_out e) with Some r => [(pk_name k, fr_nonce (or_rec r))] | None => [] end else [].
  Lemma of_entry_eq f d k e e' : pe_interest e' = pe_interest e -> (fun r => fr_nonce (or_rec r)) <$> find_out f (pe_out e') = (fun r => fr_nonce (or_rec r)) <$> find_out f (pe_out e) ->
    of_entry f d k e' = of_entry f d k e.
  Proof. intros H1 H2. unfold of_entry. rewrite H1. destruct (_ && _); [|done]. destruct (find_out f (pe_out e')), (find_out f (pe_out e)); simpl in H2; try done. by injection H2 as ->. Qed.
  Lemma finished_dead d f k clear s s' e : finished make_entry rand d f k clear s s' -> pit_at (fw_t s) k = Some e -> buried (of_entry f d k e) (fw_dnl s) (fw_dnl s').
  Proof.
    intros (e0 & s1 & s2 & W1 & H & W2) He. destruct (wrote_at _ _ _ _ _ W1) as [H0 H1]. rewrite He in H0. injection H0 as <-.
    rewrite (sc_dnl _ _ (wr_core _ _ _ _ _ W2)), <- (sc_dnl _ _ (wr_core _ _ _ _ _ W1)). apply insert_exact in H as (e1 & He1 & Hb). rewrite H1 in He1. injection He1 as <-.
    replace (of_entry f d k e) with (if short (set_satisfied (d_fresh d) e) then pair (pk_name k) <$> dnl_nonces (Some f) (set_satisfied (d_fresh d) e) else []); [done|].
    unfold of_entry, short. simpl. assert (Hc : (ns_of_ms (d_fresh d) <? DNL_LIFETIME)%Z = bool_decide (brief (d_fresh d))).
    { apply eq_true_iff_eq. by rewrite Z.ltb_lt, bool_decide_eq_true. }
    rewrite Hc. destruct (_ && _); [|done]. by destruct (find_out f (pe_out e)).
  Qed.

  Lemma sat_loop_dead d f ks s s' : (forall inst, default_data (strategies inst)) -> Inv s -> NoDup ks -> sat_loop make_entry rand face_order strategies d f ks s s' ->
    exists l, buried l (fw_dnl s) (fw_dnl s') /\ forall p, p ∈ l <-> exists k e, k ∈ ks /\ pit_at (fw_t s) k = Some e /\ p ∈ of_entry f d k e.
  Proof.
    intros Hp I Hn H. induction H as [s|k ks e p inst s s1 s2 s3 s4 H1 H2 H3 H4 H5 IH].
    { exists []. split; [apply buried_nil|]. intros p. split; [by intros ?%elem_of_nil|]. intros (k & e & Hk & _). by apply elem_of_nil in Hk. }
    apply NoDup_cons in Hn as [Hk Hn]. assert (I1 : Inv s1) by apply H1. pose proof H3 as H3'.
    eapply run_quiet in H3; [|exact W|done|done|apply (proj2 (Hp inst))]. pose proof (satoms_quiet _ _ _ _ _ H3) as (C & _ & _ & He2).
    assert (Hr : rtc (anyk None k) s1 s2) by (eapply run_satoms; [exact (wo_order _ _ _ W)|done|done|exact H3']).
    destruct (satoms_entry _ _ _ _ _ _ I1 Hr) as (B1 & _ & _).
    destruct (finished_spec _ _ _ _ _ _ _ _ H4) as (F1 & _ & _ & _ & _ & _ & F7 & _). destruct (IH F1 Hn) as (l & Hb & Hl).
    destruct (wrote_at _ _ _ _ _ H1) as [He He1]. destruct (He2 _ He1) as (e2 & Hk2 & Hlike). pose proof (finished_dead _ _ _ _ _ _ _ H4 Hk2) as Hb2.
    rewrite (of_entry_eq f d k e e2) in Hb2; [|by rewrite (lk_interest _ _ Hlike)|by rewrite (like_find_out f _ _ (lk_out _ _ Hlike))].
    exists (of_entry f d k e ++ l). split.
    - rewrite <- (sc_dnl _ _ (wr_core _ _ _ _ _ H1)), <- (sc_dnl _ _ C). by eapply buried_app.
    - intros q. rewrite elem_of_app, Hl.
      assert (Ho : forall k', k' ∈ ks -> pit_at (fw_t s3) k' = pit_at (fw_t s) k').
      { intros k' Hk'. assert (k' <> k) by (by intros ->). by rewrite F7, B1, (wrote_other _ _ _ _ _ _ H1). }
      split.
      + intros [Hq|(k' & e' & Hk' & He' & Hq)]; [exists k, e; split; [by left|done]|]. exists k', e'. split; [by right|]. by rewrite <- Ho.
      + intros (k' & e' & [->|Hk']%elem_of_cons & He' & Hq).
        * left. rewrite He in He'. by injection He' as <-.
        * right. exists k', e'. by rewrite Ho.
  Qed.
  Lemma keeps_each_out d l : keeps (each l (fun g => bind (on_outgoing_data d None g) (fun _ => ret tt))).
  Proof. apply keeps_each. intros g. apply keeps_bind; [apply keeps_out_data|]. intros _. apply keeps_ret. Qed.

  Lemma data_dead s f d s' : (forall inst, default_data (strategies inst)) -> Inv s -> ev_ok s (EvData f d) -> step s (EvData f d) = Some s' ->
    exists l, buried l (fw_dnl s) (fw_dnl s') /\ forall n x, (n, x) ∈ l <-> dies s f d n x.
  Proof.
    intros Hp I Ho H%step_event. simpl in H. eapply data_cases in H as (fc & Hf & Hc); [|exact W|done|done].
    assert (Hkey : forall k e, pit_at (fw_t s) k = Some e -> (matches_data (pe_interest e) d = true <-> satisfies k d) /\ i_mbf (pe_interest e) = pk_mbf k /\ NoDup (rec_faces_out (pe_out e))).
    { intros k e He. destruct (entry_ok _ _ _ I He) as [[? ? ? ?] Hk]. split; [by apply satisfies_iff|]. split; [by rewrite <- Hk|done]. }
    assert (Hof : forall k e, pit_at (fw_t s) k = Some e -> forall n x, (n, x) ∈ of_entry f d k e <->
      exists r, out_record_of s k f r /\ pk_mbf k = true /\ brief (d_fresh d) /\ n = pk_name k /\ x = fr_nonce (or_rec r)).
    { intros k e He n x. destruct (Hkey k e He) as (_ & Hm & Hnd). unfold of_entry. rewrite Hm. split.
      - destruct (pk_mbf k && _) eqn:E; [|by intros ?%elem_of_nil]. apply andb_prop in E as [E1 E2%bool_decide_eq_true]. destruct (find_out f (pe_out e)) as [r|] eqn:Er; [|by intros ?%elem_of_nil].
        intros Hx%elem_of_list_singleton. injection Hx as -> ->. apply find_out_Some in Er as [? ?]. exists r. split; [by exists e|done].
      - intros (r & (e' & He' & Hr & Hrf) & -> & E2 & -> & ->). rewrite He in He'. injection He' as <-. rewrite (bool_decide_eq_true_2 _ E2). simpl. rewrite <- Hrf, (elem_find_out _ _ Hnd Hr). by left. }
    assert (Hscope : negb (fc_local fc) && is_localhost (d_name d) = false -> localhost (d_name d) -> local_face s f).
    { intros Hs Hl. apply scope_flag in Hs; [|done]. by exists fc. }
    destruct Hc as [Hloc Hn ->|Hns Hno Hs'|k e s1 s2 s3 Hns He Hks (c & _ & -> & I1) Hw2 (p & inst & Heff & Hr) Hfin|ks s1 s2 pend Hns Hnd Hlen Hks (c & _ & -> & I1) Hsat Hpn Hpe Hout].
    - exists []. split; [apply buried_nil|]. intros n x. split; [by intros ?%elem_of_nil|]. intros [Hl _]. apply is_localhost_spec in Hn. destruct (Hl Hn) as (fc' & ? & ?). congruence.
    - exists []. split.
      + replace (fw_dnl s') with (fw_dnl s); [apply buried_nil|]. simpl in Hs'. destruct (unsol_decide (fw_unsol s) fc); [|by subst s']. by destruct Hs' as (c & _ & -> & _).
      + intros n x. split; [by intros ?%elem_of_nil|]. intros [_ (k & r & (e & He & _) & Hs & _)]. exfalso. apply (Hno k). exists e. split; [done|]. by apply (Hkey k e He).
    - assert (I2 : Inv s2) by apply Hw2. unfold after_receive_data in Hr. rewrite (proj1 (Hp inst)) in Hr. apply bind_Some in Hr as (s4 & [] & H4 & H5).
      eapply run_quiet in H4; [|exact W|done|done|apply (proj2 (Hp inst))]. pose proof (satoms_quiet _ _ _ _ _ H4) as (C4 & _ & _ & He4).
      assert (I4 : Inv s4) by (by eapply satoms_inv). destruct (wrote_at _ _ _ _ _ Hw2) as [_ He2]. destruct (He4 _ He2) as (e4 & Hk4 & Hlike).
      destruct (a_data_all _ (wo_order _ _ _ W) None _ _ _ _ _ _ I4 H5) as (e4' & Hk4' & Ha). rewrite Hk4 in Hk4'. injection Hk4' as <-. destruct Ha as (Ha & _).
      destruct (data_atoms _ _ _ _ _ _ _ Ha Hk4) as [D5 (e5 & He5 & O5 & J5)].
      pose proof (finished_dead _ _ _ _ _ _ _ Hfin He5) as Hb. rewrite D5, (sc_dnl _ _ C4), (sc_dnl _ _ (wr_core _ _ _ _ _ Hw2)) in Hb. simpl in Hb.
      rewrite (of_entry_eq f d k e e5) in Hb; [|by rewrite J5, (lk_interest _ _ Hlike)|by rewrite O5, (like_find_out f _ _ (lk_out _ _ Hlike))].
      exists (of_entry f d k e). split; [done|]. intros n x. rewrite (Hof k e He). split.
      + intros (r & Hr & Hm & Hfr & Hn & Hx). split; [by apply Hscope|]. exists k, r. split; [done|]. split; [|done].
        assert (Hmk : matching s d k) by (by apply Hks). destruct Hmk as (e' & He' & Hmk). by apply (Hkey k e' He').
      + intros [_ (k' & r & Hr & Hs & Hm & Hfr & Hn & Hx)]. assert (k' = k) as ->; [|by exists r]. apply Hks. destruct Hr as (e' & He' & _). exists e'. split; [done|]. by apply (Hkey k' e' He').
    - destruct (sat_loop_dead d f ks _ s2 Hp I1 Hnd Hsat) as (l & Hb & Hl). exists l. split.
      + rewrite (keeps_each_out _ _ _ _ _ Hout). exact Hb.
      + intros n x. rewrite Hl. simpl. split.
        * intros (k & e & Hk & He & (r & Hr & Hm & Hfr & Hn & Hx)%(Hof k e He)). split; [by apply Hscope|]. exists k, r. split; [done|]. split; [|done].
          apply Hks in Hk as (e' & He' & Hmk). by apply (Hkey k e' He').
        * intros [_ (k & r & Hr & Hs & Hm & Hfr & Hn & Hx)]. pose proof Hr as (e & He & _). exists k, e. split; [apply Hks; exists e; split; [done|by apply (Hkey k e He)]|]. split; [done|].
          apply (Hof k e He). by exists r.
  Qed.
  Lemma same_t_each d l : forall s s' a, each l (fun g => bind (on_outgoing_data d None g) (fun _ => ret tt)) s = Some (s', a) -> fw_t s' = fw_t s.
  Proof.
    induction l as [|g l IH]; intros s s' a H; simpl in H; [by injection H as <- <-|]. apply bind_Some in H as (s1 & [] & H1 & H).
    rewrite (IH _ _ _ H). apply out_data_one in H1 as [->|(fc & _ & _ & ->)]; done.
  Qed.
  Lemma data_fresh s f d s' k e' : Inv s -> ev_ok s (EvData f d) -> step s (EvData f d) = Some s' -> takes_data s (EvData f d) k -> is_Some (pit_at (fw_t s) k) -> pit_at (fw_t s') k = Some e' -> pe_satisfied e' = true /\ pe_fresh e' = d_fresh d.
  Proof.
    intros I Ho H%step_event Ht Hk He'. simpl in H. eapply data_cases in H as (fc & Hf & Hc); [|exact W|done|done].
    assert (Hm : matching s d k /\ negb (fc_local fc) && is_localhost (d_name d) = false).
    { destruct Ht as (f0 & d0 & [= <- <-] & Hs & Hl). split; [destruct Hk as [e He]; exists e; split; [done|]; destruct (entry_ok _ _ _ I He) as [_ Hk]; by apply (satisfies_iff e d k Hk)|].
      apply scope_flag. intros Hx%Hl. destruct Hx as (fc' & Hf' & ?). congruence. }
    destruct Hm as [Hm Hsc].
    destruct Hc as [Hloc Hn ->|Hns Hno Hs'|k0 e s1 s2 s3 Hns He Hks (c & _ & -> & I1) Hw2 (p & inst & Heff & Hr) Hfin|ks s1 s2 pend Hns Hnd Hlen Hks (c & _ & -> & I1) Hsat Hpn Hpe Hout].
    - by rewrite Hloc, Hn in Hsc.
    - by destruct (Hno k).
    - apply Hks in Hm as ->. destruct (finished_spec _ _ _ _ _ _ _ _ Hfin) as (_ & _ & _ & _ & _ & _ & _ & e2 & _ & F9). rewrite F9 in He'. by injection He' as <-.
    - rewrite (same_t_each _ _ _ _ _ Hout) in He'. eapply sat_loop_spec in Hsat as (_ & _ & _ & _ & _ & J); [|exact W|done|done].
      apply Hks in Hm. destruct (J k Hm) as (e & e2 & _ & He2 & _ & _ & H1 & H2 & _). rewrite He' in He2. by injection He2 as ->.
  Qed.
  Lemma timer_dead s k s' : Inv s -> step s (EvPitTimer k) = Some s' -> exists e, pit_at (fw_t s) k = Some e /\
    buried (if decide (pe_satisfied e = true /\ ~ (pk_mbf k = true /\ brief (pe_fresh e))) then [] else pair (pk_name k) <$> ((fun r => fr_nonce (or_rec r)) <$> pe_out e)) (fw_dnl s) (fw_dnl s').
  Proof.
    intros I H%step_event. simpl in H. apply timer_case in H as [e Hz]; [|done]. pose proof (fz_entry _ _ _ _ _ _ Hz) as He. exists e. split; [done|].
    destruct (fz_dnl _ _ _ _ _ _ Hz) as (s1 & H1 & ->). apply insert_exact in H1 as (e1 & He1 & Hb). rewrite He in He1. injection He1 as <-.
    destruct (entry_ok _ _ _ I He) as [_ Hk]. assert (Hm : i_mbf (pe_interest e) = pk_mbf k) by (by rewrite <- Hk).
    assert (Hc : short e = negb (pe_satisfied e) || (pk_mbf k && bool_decide (brief (pe_fresh e)))).
    { unfold short. rewrite Hm. do 2 f_equal. apply eq_true_iff_eq. by rewrite Z.ltb_lt, bool_decide_eq_true. }
    rewrite Hc in Hb. case_decide as Hd.
    - destruct Hd as [Hsat Hd]. rewrite Hsat in Hb. simpl in Hb. destruct (pk_mbf k); simpl in Hb; [|done]. case_bool_decide; [|done]. by destruct Hd.
    - replace (negb (pe_satisfied e) || (pk_mbf k && bool_decide (brief (pe_fresh e)))) with true in Hb; [done|]. symmetry.
      destruct (pe_satisfied e); [|done]. simpl. destruct (pk_mbf k); simpl; [|destruct Hd; split; [done|by intros [? _]]]. case_bool_decide; [done|]. destruct Hd. split; [done|]. by intros [_ ?].
  Qed.
End dead.
