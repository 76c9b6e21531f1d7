(** What each pipeline does, continued: Data, Nacks and the other events *)
From stdpp Require Import gmap.
From Verif Require Import Lib Name_Model Name_Proof Packet_Model Nt_Model Nt_Spec Nt_Tree Tree_Model Tree_Proof Tab_Model Tab_Spec Tab_At Tab_Fib Tab_Pit Tab_Pit2 Tab_Meas Tab_Sc Tab_Clean Tab_Run Tab_Main Fw_Model Fw_Spec Fw_Inv Fw_Case.
From Verif Require Cs_Model Cs_Spec Cs_Main Cs_Run Dnl_Model.

(** what packets never change *)
Record same_config (s s' : fw) : Prop := {
  cf_faces : fw_faces s' = fw_faces s;
  cf_last : fw_last s' = fw_last s;
  cf_regions : fw_regions s' = fw_regions s;
  cf_unsol : fw_unsol s' = fw_unsol s;
  cf_hop : fw_hop s' = fw_hop s;
  cf_fib : forall n, fib_at (fw_t s') n = fib_at (fw_t s) n;
  cf_sc : forall n, sc_at (fw_t s') n = sc_at (fw_t s) n;
  cf_now : now (fw_t s') = now (fw_t s);
}.
Lemma core_config s s' : same_core s s' -> same_config s s'.
Proof. intros []. by split. Qed.
Lemma same_config_refl s : same_config s s.
Proof. by split. Qed.
Lemma same_config_trans s1 s2 s3 : same_config s1 s2 -> same_config s2 s3 -> same_config s1 s3.
Proof. intros [] []. split; try congruence; intros n; etrans; eauto. Qed.
Lemma wrote_config k e e' s s' : wrote k e e' s s' -> same_config s s'.
Proof. intros []. by apply core_config. Qed.
Lemma wrote_other k e e' s s' k' : wrote k e e' s s' -> k' <> k -> pit_at (fw_t s') k' = pit_at (fw_t s) k'.
Proof. intros [] H. destruct wr_entry as [_ Hk]. by rewrite Hk, decide_False. Qed.
Lemma wrote_at k e e' s s' : wrote k e e' s s' -> pit_at (fw_t s) k = Some e /\ pit_at (fw_t s') k = Some e'.
Proof. intros []. by apply entry_to_at. Qed.

(** ** What a strategy does to its entry *)
Record thinned (e e' : pit_entry) : Prop := {
  th_interest : pe_interest e' = pe_interest e;
  th_sat : pe_satisfied e' = pe_satisfied e;
  th_fresh : pe_fresh e' = pe_fresh e;
  th_in : forall g r', find_in g (pe_in e') = Some r' -> exists r, find_in g (pe_in e) = Some r /\ like_in r r';
  th_out : forall g, is_Some (find_out g (pe_out e)) -> is_Some (find_out g (pe_out e'));
  th_timer : is_Some (pe_timer e) -> is_Some (pe_timer e');
}.
Lemma like_in_trans r1 r2 r3 : like_in r1 r2 -> like_in r2 r3 -> like_in r1 r3.
Proof. intros [(A1 & A2 & A3 & A4) A5] [(B1 & B2 & B3 & B4) B5]. split; [|congruence]. split; [congruence|]. split; [congruence|]. split; congruence. Qed.
Lemma thinned_refl e : thinned e e.
Proof. split; try done. intros g r H. exists r. by split. Qed.
Lemma thinned_trans e1 e2 e3 : thinned e1 e2 -> thinned e2 e3 -> thinned e1 e3.
Proof.
  intros [A1 A2 A3 A4 A5 A6] [B1 B2 B3 B4 B5 B6]. split; try congruence; auto.
  intros g r3 (r2 & (r1 & H1 & H2)%A4 & H3)%B4. exists r1. split; [done|]. by eapply like_in_trans.
Qed.
Lemma thinned_like e e' : like e e' -> (is_Some (pe_timer e) -> is_Some (pe_timer e')) -> thinned e e'.
Proof.
  intros [H1 H2 H3 H4 H5] Ht. split; try done.
  - intros g r' Hr'. pose proof (like_find_in g _ _ H2) as H. rewrite Hr' in H. destruct (find_in g (pe_in e)) as [r|]; [|done]. by exists r.
  - intros g [r Hr]. pose proof (like_find_out g _ _ H3) as H. rewrite Hr in H. destruct (find_out g (pe_out e')) as [r'|]; [|done]. by exists r'.
Qed.
Lemma delete_in_find f l g r : find_in g (delete_in f l) = Some r -> NoDup (rec_faces_in l) -> find_in g l = Some r /\ g <> f.
Proof. intros H Hn. destruct (delete_in_ok f l Hn) as (_ & Hd & _). rewrite Hd in H. by case_decide. Qed.

Lemma satom_entry trig k a s s' : Inv s -> satom trig k a s s' ->
  (forall k', k' <> k -> pit_at (fw_t s') k' = pit_at (fw_t s) k') /\ pit_n (fw_t s') = pit_n (fw_t s) /\
  (forall e, pit_at (fw_t s) k = Some e -> exists e', pit_at (fw_t s') k = Some e' /\ thinned e e').
Proof.
  intros I H.
  assert (Hgo : forall e e', entry_to k e e' s s' -> pit_n (fw_t s') = pit_n (fw_t s) -> thinned e e' ->
    (forall k', k' <> k -> pit_at (fw_t s') k' = pit_at (fw_t s) k') /\ pit_n (fw_t s') = pit_n (fw_t s) /\
    (forall e, pit_at (fw_t s) k = Some e -> exists e', pit_at (fw_t s') k = Some e' /\ thinned e e')).
  { intros e e' [He Hk] Hn Hth. split; [|split; [done|]].
    - intros k' Hk'. by rewrite Hk, decide_False.
    - intros e0. rewrite He. intros [= <-]. exists e'. split; [by rewrite Hk, decide_True|done]. }
  assert (Hdel : forall e f, pit_at (fw_t s) k = Some e -> thinned e (set_pe_in (delete_in f (pe_in e)) e)).
  { intros e f He. split; try done. intros g r' Hr'. simpl in Hr'. exists r'. split; [|done]. eapply delete_in_find; [exact Hr'|].
    destruct (entry_ok _ _ _ I He) as [[Hn _ _ _] _]. exact Hn. }
  destruct H as [? C T E|e e' ? C T E L Hn Ht|e e' ms ? C T E L Hn Ht|e i j src nonce nd f fc ? C T Hs Hd Hj Hf Hh E Hn|src nonce nd f ? C E
    |e r d f0 f fc ? C T Hr Hm Hf Hl E Hn|e r d f0 f fc ? C T Hr Hm Hf Hl Hl' E Hn|e r f fc reason ? C T Hr Hf Hl E Hn].
  - split; [done|]. split; [done|]. intros e He. exists e. split; [by rewrite E|apply thinned_refl].
  - eapply Hgo; [exact E|done|]. apply thinned_like; [done|]. by rewrite Ht.
  - eapply Hgo; [exact E|done|]. apply thinned_like; [done|]. by rewrite Ht.
  - eapply Hgo; [exact E|done|]. split; try done.
    + intros g r Hr. exists r. by split.
    + intros g Hg. simpl. destruct E as [E _]. destruct (entry_ok _ _ _ I E) as [[_ Hno _ _] _].
      destruct (insert_out_ok f j (now (fw_t s)) _ Hno) as [_ Hins]. rewrite Hins. case_decide; [by eexists|done].
  - rewrite E. split; [done|]. split; [done|]. intros e He. exists e. split; [done|apply thinned_refl].
  - eapply Hgo; [exact E|done|apply Hdel, E].
  - eapply Hgo; [exact E|done|apply Hdel, E].
  - eapply Hgo; [exact E|done|apply Hdel, E].
Qed.
Lemma satoms_entry R K trig k s s' : Inv s -> rtc (allowed R K trig k) s s' ->
  (forall k', k' <> k -> pit_at (fw_t s') k' = pit_at (fw_t s) k') /\ pit_n (fw_t s') = pit_n (fw_t s) /\
  (forall e, pit_at (fw_t s) k = Some e -> exists e', pit_at (fw_t s') k = Some e' /\ thinned e e').
Proof.
  intros I H. induction H as [|s s1 s' (a & H1 & _) H2 IH].
  - split; [done|]. split; [done|]. intros e He. exists e. split; [done|apply thinned_refl].
  - destruct (satom_entry _ _ _ _ _ I H1) as (A1 & A2 & A3). destruct IH as (B1 & B2 & B3); [by eapply satom_inv|].
    split; [|split; [congruence|]].
    + intros k' Hk'. by rewrite B1, A1.
    + intros e (e1 & He1 & Ht1)%A3. destruct (B3 e1 He1) as (e2 & He2 & Ht2). exists e2. split; [done|]. by eapply thinned_trans.
Qed.

(** a quiet trigger *)
Definition Kquiet : fw -> act -> Prop := fun _ a => match a with ATimer _ | AOther => True | _ => False end.
Lemma like_trans e1 e2 e3 : like e1 e2 -> like e2 e3 -> like e1 e3.
Proof.
  intros [A1 A2 A3 A4 A5] [B1 B2 B3 B4 B5]. split; try congruence.
  - revert A2 B2. generalize (pe_in e1) (pe_in e2) (pe_in e3). intros l1 l2 l3 H. revert l3. induction H; intros l3 H3; inversion H3; subst; constructor; [by eapply like_in_trans|auto].
  - revert A3 B3. generalize (pe_out e1) (pe_out e2) (pe_out e3). intros l1 l2 l3 H. revert l3.
    induction H as [|x y l1 l2 Hx H IH]; intros l3 H3; inversion H3 as [|? z ? l3' Hz H3']; subst; constructor; [|auto].
    destruct Hx as [(C1 & C2 & C3 & C4) C5], Hz as [(D1 & D2 & D3 & D4) D5]. split; [|congruence]. split; [congruence|]. split; [congruence|]. split; congruence.
Qed.
Lemma satoms_quiet R trig k s s' : rtc (allowed R Kquiet trig k) s s' ->
  same_core s s' /\ fw_log s' = fw_log s /\ fw_cnt s' = fw_cnt s /\
  (forall e, pit_at (fw_t s) k = Some e -> exists e', pit_at (fw_t s') k = Some e' /\ like e e').
Proof.
  induction 1 as [|s s1 s' (a & H1 & lr & _ & HK) H2 (IH1 & IH2 & IH3 & IH4)].
  { split; [apply same_core_refl|]. split; [done|]. split; [done|]. intros e He. exists e. split; [done|apply like_refl]. }
  assert (Hs : same_core s s1 /\ fw_log s1 = fw_log s /\ fw_cnt s1 = fw_cnt s /\ (forall e, pit_at (fw_t s) k = Some e -> exists e', pit_at (fw_t s1) k = Some e' /\ like e e')).
  { destruct H1 as [-> C T E|e e' -> C T E L Hn|e e' ms -> C T E L Hn|e i j src nonce nd f fc -> C T Hs Hd Hj Hf Hh E Hn|src nonce nd f -> C E
      |e r d f0 f fc -> C T Hr Hm Hf Hl E Hn|e r d f0 f fc -> C T Hr Hm Hf Hl Hl' E Hn|e r f fc reason -> C T Hr Hf Hl E Hn]; try done.
    - split; [done|]. split; [done|]. split; [done|]. intros e He. exists e. split; [by rewrite E|apply like_refl].
    - split; [done|]. split; [done|]. split; [done|]. intros e0 He0. destruct E as [E1 E2]. rewrite E1 in He0. injection He0 as <-. exists e'. split; [by rewrite E2, decide_True|done].
    - split; [done|]. split; [done|]. split; [done|]. intros e0 He0. destruct E as [E1 E2]. rewrite E1 in He0. injection He0 as <-. exists e'. split; [by rewrite E2, decide_True|done]. }
  destruct Hs as (A1 & A2 & A3 & A4). split; [by eapply same_core_trans|]. split; [congruence|]. split; [congruence|].
  intros e (e1 & He1 & L1)%A4. destruct (IH4 e1 He1) as (e2 & He2 & L2). exists e2. split; [done|]. by eapply like_trans.
Qed.

Section case2.
  Variable sort_nexthops : list nexthop -> list nexthop.
  Variable create_strategy : name -> create_result.
  Variable same_type : name -> name -> bool.
  Variable make_entry : name -> N -> Dnl_Model.fingerprint.
  Variable rand : nat -> nat.
  Variable face_order : list N -> list N.
  Variable strategies : name -> strategy.
  Hypothesis W : world_ok sort_nexthops same_type face_order.

  Lemma run_quiet trig k p s s' u : Inv s -> (forall i, trig = Some i -> (0 <= i_lifetime i)%Z) -> quiet p ->
    run rand face_order trig k p s = Some (s', u) -> rtc (allowed (fun _ => True) Kquiet trig k) s s'.
  Proof.
    intros I Ht Hq H. eapply (run_obeys _ _ (wo_order _ _ _ W) (fun _ => True) Kquiet trig k (fun _ => True)); [done|done|done|done|done|done|done|apply (Hq s)|exact H].
  Qed.

  (** ** Data *)
  Definition matching (s : fw) (d : data) (k : pit_key) : Prop :=
    exists e, pit_at (fw_t s) k = Some e /\ matches_data (pe_interest e) d = true.
  Definition received (d : data) (f : N) (k : pit_key) (s s' : fw) : Prop :=
    exists p inst, effective (pk_name k) (fw_t s) = Some (p, inst) /\
      after_receive_data rand face_order (strategies inst) d f k s = Some (s', tt).

  (** the entry is marked satisfied, the upstream's Nonce goes to the dead nonce list, and its out-record goes *)
  Definition finished (d : data) (f : N) (k : pit_key) (clear : bool) (s s' : fw) : Prop :=
    exists e s1 s2, wrote k e (set_satisfied (d_fresh d) e) s s1 /\ insert_dead_nonce_list make_entry rand k (Some f) s1 = Some (s2, tt) /\
      wrote k (set_satisfied (d_fresh d) e)
        (set_pe_out (delete_out f (pe_out e)) (if clear then set_pe_in [] (set_satisfied (d_fresh d) e) else set_satisfied (d_fresh d) e)) s2 s'.

  Definition inserted_data (d : data) (unsol : bool) (s s' : fw) : Prop :=
    exists c, Cs_Model.cs_insert (now (fw_t s)) d unsol (fw_cs s) = Some c /\ s' = set_cs c s /\ Inv s'.

  (** one entry of the loop over several matching entries *)
  Inductive sat_loop (d : data) (f : N) : list pit_key -> fw -> fw -> Prop :=
  | sl_nil s : sat_loop d f [] s s
  | sl_cons k ks e p inst s s1 s2 s3 s4 : wrote k e (set_timer (now (fw_t s)) e) s s1 -> effective (pk_name k) (fw_t s1) = Some (p, inst) ->
      run rand face_order None k (st_before (strategies inst) d f k) s1 = Some (s2, tt) ->
      finished d f k true s2 s3 -> sat_loop d f ks s3 s4 -> sat_loop d f (k :: ks) s s4.

  Inductive data_case (s : fw) (f : N) (d : data) (fc : face) (s' : fw) : Prop :=
  | dc_scope : fc_local fc = false -> is_localhost (d_name d) = true -> s' = got (Rx_data f d) inc_in_data s -> data_case s f d fc s'
  | dc_unsol : negb (fc_local fc) && is_localhost (d_name d) = false -> (forall k, ~ matching s d k) ->
      (let s1 := set_cnt (inc_unsolicited (inc_in_data (fw_cnt s))) (set_log (Rx_data f d :: fw_log s) s) in
       if unsol_decide (fw_unsol s) fc then inserted_data d true s1 s' else s' = s1) -> data_case s f d fc s'
  | dc_one k e s1 s2 s3 : negb (fc_local fc) && is_localhost (d_name d) = false ->
      pit_at (fw_t s) k = Some e -> (forall k', matching s d k' <-> k' = k) ->
      inserted_data d false (got (Rx_data f d) inc_in_data s) s1 -> wrote k e (set_timer (now (fw_t s)) e) s1 s2 ->
      received d f k s2 s3 -> finished d f k false s3 s' -> data_case s f d fc s'
  | dc_many ks s1 s2 pending : negb (fc_local fc) && is_localhost (d_name d) = false ->
      NoDup ks -> (2 <= length ks) -> (forall k, matching s d k <-> k ∈ ks) ->
      inserted_data d false (got (Rx_data f d) inc_in_data s) s1 -> sat_loop d f ks s1 s2 ->
      NoDup pending -> (forall g, g ∈ pending <-> exists k e, k ∈ ks /\ pit_at (fw_t s) k = Some e /\ g ∈ pending_downstreams (now (fw_t s)) e) ->
      each (List.filter (not_back (fw_faces s2) f) (face_order pending)) (fun g => bind (on_outgoing_data d None g) (fun _ => ret tt)) s2 = Some (s', tt) ->
      data_case s f d fc s'.

  Lemma finish_case d f k (clear : bool) s s' u : Inv s ->
    (bind (mark_satisfied k (d_fresh d)) (fun _ => bind (insert_dead_nonce_list make_entry rand k (Some f)) (fun _ =>
      upd_entry k (fun e => set_pe_out (delete_out f (pe_out e)) (if clear then set_pe_in [] e else e))))) s = Some (s', u) ->
    finished d f k clear s s'.
  Proof.
    intros I H. apply bind_Some in H as (s1 & v1 & H1 & H). apply mark_step in H1 as [e W1]; [|done].
    apply bind_Some in H as (s2 & [] & H2 & H). exists e, s1, s2. split; [done|]. split; [done|].
    destruct (dnl_step _ _ _ _ _ _ _ H2) as (dn & n & ->). assert (I2 : Inv (set_dnl dn (set_rand n s1))) by (apply Inv_dnl, Inv_rand, W1).
    eapply upd_step in H as [e' W2]; [|done|by destruct clear|..].
    - destruct (wrote_at _ _ _ _ _ W1) as [_ He1]. destruct (wrote_at _ _ _ _ _ W2) as [He2 _]. simpl in He2. rewrite He1 in He2. injection He2 as <-. exact W2.
    - intros e0 _ Hok. destruct clear; [|by apply pe_ok_del_out]. apply (pe_ok_del_out _ f (set_pe_in [] e0)). by apply pe_ok_clear_in.
    - intros e0 _ [E1 E2 E3 E4]. assert (Hs : forall r, r ∈ delete_out f (pe_out e0) -> r ∈ pe_out e0).
      { generalize (pe_out e0). induction l as [|x l IH]; simpl; [done|]. intros r. destruct (fr_face (or_rec x) =? f)%N; [by right|].
        intros [->|?]%elem_of_cons; [by left|right; by apply IH]. }
      destruct clear; split; simpl; auto; intros r Hr; by apply elem_of_nil in Hr.
  Qed.

  Lemma finished_spec d f k clear s s' : finished d f k clear s s' ->
    Inv s' /\ same_config s s' /\ fw_log s' = fw_log s /\ fw_cnt s' = fw_cnt s /\ fw_cs s' = fw_cs s /\ pit_n (fw_t s') = pit_n (fw_t s) /\
    (forall k', k' <> k -> pit_at (fw_t s') k' = pit_at (fw_t s) k') /\
    exists e, pit_at (fw_t s) k = Some e /\
      pit_at (fw_t s') k = Some (set_pe_out (delete_out f (pe_out e)) (if clear then set_pe_in [] (set_satisfied (d_fresh d) e) else set_satisfied (d_fresh d) e)).
  Proof.
    intros (e & s1 & s2 & W1 & H & W2). destruct (dnl_step _ _ _ _ _ _ _ H) as (dn & n & ->). split; [apply W2|].
    split; [eapply same_config_trans; [by eapply wrote_config|]; eapply same_config_trans; [|by eapply wrote_config]; by split|].
    split; [by rewrite (wr_log _ _ _ _ _ W2), <- (wr_log _ _ _ _ _ W1)|]. split; [by rewrite (wr_cnt _ _ _ _ _ W2), <- (wr_cnt _ _ _ _ _ W1)|].
    split; [by rewrite (sc_cs _ _ (wr_core _ _ _ _ _ W2)), <- (sc_cs _ _ (wr_core _ _ _ _ _ W1))|].
    split; [by rewrite (wr_n _ _ _ _ _ W2), <- (wr_n _ _ _ _ _ W1)|].
    split; [intros k' Hk'; rewrite (wrote_other _ _ _ _ _ _ W2 Hk'); by rewrite <- (wrote_other _ _ _ _ _ _ W1 Hk')|].
    exists e. split; [exact (proj1 (wrote_at _ _ _ _ _ W1))|exact (proj2 (wrote_at _ _ _ _ _ W2))].
  Qed.

  Lemma sat_loop_spec d f ks s s' : Inv s -> NoDup ks -> sat_loop d f ks s s' ->
    Inv s' /\ same_config s s' /\ fw_cs s' = fw_cs s /\ pit_n (fw_t s') = pit_n (fw_t s) /\
    (forall k, k ∉ ks -> pit_at (fw_t s') k = pit_at (fw_t s) k) /\
    (forall k, k ∈ ks -> exists e e', pit_at (fw_t s) k = Some e /\ pit_at (fw_t s') k = Some e' /\ pe_interest e' = pe_interest e /\
       pe_in e' = [] /\ pe_satisfied e' = true /\ pe_fresh e' = d_fresh d /\ is_Some (pe_timer e')).
  Proof.
    intros I Hn H. induction H as [s|k ks e p inst s s1 s2 s3 s4 H1 H2 H3 H4 H5 IH].
    { split; [done|]. split; [apply same_config_refl|]. split; [done|]. split; [done|]. split; [done|]. intros k Hk. by apply elem_of_nil in Hk. }
    apply NoDup_cons in Hn as [Hk Hn]. assert (I1 : Inv s1) by apply H1.
    assert (Hr : rtc (anyk None k) s1 s2) by (eapply run_satoms; [exact (wo_order _ _ _ W)|done|done|exact H3]).
    destruct (finished_spec _ _ _ _ _ _ H4) as (F1 & F2 & F3 & F4 & F5 & F6 & F7 & e2 & F8 & F9). destruct (IH F1 Hn) as (J1 & J2 & J3 & J4 & J5 & J6).
    destruct (satoms_entry _ _ _ _ _ _ I1 Hr) as (B1 & B2 & B3). pose proof (satoms_core _ _ _ _ _ _ Hr) as C.
    split; [done|]. split.
    { eapply same_config_trans; [by eapply wrote_config|]. eapply same_config_trans; [by apply core_config|]. by eapply same_config_trans. }
    split; [by rewrite J3, F5, (sc_cs _ _ C), (sc_cs _ _ (wr_core _ _ _ _ _ H1))|].
    split; [by rewrite J4, F6, B2, (wr_n _ _ _ _ _ H1)|].
    split.
    - intros k' Hk'. apply not_elem_of_cons in Hk' as [Hk1 Hk2]. by rewrite J5, F7, B1, (wrote_other _ _ _ _ _ _ H1).
    - intros k' [->|Hk']%elem_of_cons.
      + destruct (wrote_at _ _ _ _ _ H1) as [He He1]. destruct (B3 _ He1) as (e2' & He2 & Hth). rewrite F8 in He2. injection He2 as <-.
        eexists e, _. split; [done|]. split; [by rewrite J5|]. simpl. split; [exact (th_interest _ _ Hth)|]. split; [done|]. split; [done|]. split; [done|].
        apply (th_timer _ _ Hth). by eexists.
      + destruct (J6 k' Hk') as (e0 & e' & G1 & G2). assert (k' <> k) by (by intros ->). exists e0, e'. split; [|done].
        by rewrite F7, B1, (wrote_other _ _ _ _ _ _ H1) in G1.
  Qed.

  Lemma sat_loop_case d f ks : forall s s' pend pend', Inv s -> NoDup ks -> (forall k, k ∈ ks -> is_Some (pit_at (fw_t s) k)) -> NoDup pend ->
    satisfy_all make_entry rand face_order strategies d f ks pend s = Some (s', pend') ->
    sat_loop d f ks s s' /\ NoDup pend' /\
    (forall g, g ∈ pend' <-> g ∈ pend \/ exists k e, k ∈ ks /\ pit_at (fw_t s) k = Some e /\ g ∈ pending_downstreams (now (fw_t s)) e).
  Proof.
    induction ks as [|k ks IH]; intros s s' pend pend' I Hn Hk Hp H; simpl in H.
    { injection H as <- <-. split; [constructor|]. split; [done|]. intros g. split; [by left|]. intros [?|(k & e & Hk' & _)]; [done|by apply elem_of_nil in Hk']. }
    apply NoDup_cons in Hn as [Hk1 Hn].
    apply bind_Some in H as (s0 & s00 & [= <- <-] & H). apply bind_Some in H as (s0 & e & [-> He]%entry_Some & H).
    set (add := List.filter _ _) in H. apply bind_Some in H as (s1 & v1 & H1 & H). apply set_expiry_step in H1 as [e1 W1]; [|done].
    destruct (wrote_at _ _ _ _ _ W1) as [He1 He1']. rewrite He in He1. injection He1 as <-.
    assert (Ez : (now (fw_t s) + ns_of_ms (Z.max 0 0) = now (fw_t s))%Z) by apply Z.add_0_r. rewrite Ez in W1.
    apply bind_Some in H as (s2 & st & Hst & H). unfold strategy_for in Hst. destruct (effective (pk_name k) (fw_t s1)) as [[p inst]|] eqn:Eeff; [|done]. injection Hst as <- <-.
    apply bind_Some in H as (s2 & [] & H2 & H).
    assert (I1 : Inv s1) by apply W1. assert (Hr : rtc (anyk None k) s1 s2) by (eapply run_satoms; [exact (wo_order _ _ _ W)|done|done|exact H2]).
    assert (I2 : Inv s2) by (by eapply satoms_inv).
    apply bind_Some in H as (s3 & v3 & H3 & H). apply bind_Some in H as (s4 & v4 & H4 & H). apply bind_Some in H as (s5 & v5 & H5 & H).
    assert (Hfin : finished d f k true s2 s5).
    { eapply finish_case; [done|]. unfold bind at 1. rewrite H3. unfold bind. rewrite H4. exact H5. }
    destruct (finished_spec _ _ _ _ _ _ Hfin) as (F1 & F2 & F3 & F4 & F5 & F6 & F7 & e2 & F8 & F9).
    destruct (satoms_entry _ _ _ _ _ _ I1 Hr) as (B1 & B2 & B3). pose proof (satoms_core _ _ _ _ _ _ Hr) as C.
    assert (Hother : forall k', k' <> k -> pit_at (fw_t s5) k' = pit_at (fw_t s) k').
    { intros k' Hk'. by rewrite F7, B1, (wrote_other _ _ _ _ _ _ W1). }
    assert (Hnow : now (fw_t s5) = now (fw_t s)) by (by rewrite (cf_now _ _ F2), (sc_now _ _ C), (sc_now _ _ (wr_core _ _ _ _ _ W1))).
    assert (Hadd : forall g, g ∈ add <-> g ∈ pending_downstreams (now (fw_t s)) e /\ g ∉ pend).
    { intros g. unfold add. rewrite !elem_of_list_In, filter_In, negb_true_iff, <- not_true_iff_false, existsb_exists.
      split; intros [G1 G2]; (split; [done|]).
      - intros Hg. apply G2. exists g. split; [done|]. apply N.eqb_refl.
      - intros (g' & Hg' & ->%N.eqb_eq). done. }
    destruct (entry_ok _ _ _ I He) as [Hok _].
    destruct (IH s5 s' (pend ++ add) pend') as (J1 & J2 & J3); [done|done| | |done|].
    - intros k' Hk'. rewrite Hother by (by intros ->). apply Hk. by right.
    - apply NoDup_app. split; [done|]. split; [intros g Hg Hg'%Hadd; by apply Hg'|].
      eapply sublist_NoDup; [apply sublist_filter|]. by eapply pending_nodup.
    - split; [by econstructor|]. split; [done|]. intros g. rewrite J3, elem_of_app, Hadd, Hnow. split.
      + intros [[?|[? _]]|(k' & e' & Hk' & He' & Hg)]; [by left|right; exists k, e; split; [by left|done]|].
        right. exists k', e'. split; [by right|]. rewrite Hother in He' by (by intros ->). done.
      + intros [?|(k' & e' & [->|Hk']%elem_of_cons & He' & Hg)]; [left; by left| |].
        * rewrite He in He'. injection He' as <-. left. destruct (decide (g ∈ pend)); [by left|right; by split].
        * right. exists k', e'. rewrite Hother by (by intros ->). done.
  Qed.

  Lemma cs_insert_case d unsol s s' u : Inv s -> Cs_Spec.data_wf d -> cs_insert d unsol s = Some (s', u) -> inserted_data d unsol s s'.
  Proof.
    intros I Hd H. unfold cs_insert in H. destruct (Cs_Model.cs_insert (now (fw_t s)) d unsol (fw_cs s)) as [c|] eqn:E; [|done].
    injection H as <- <-. exists c. split; [done|]. split; [done|]. eapply (Inv_cs (Cs_Model.OInsert (now (fw_t s)) d unsol)); [done|done|].
    unfold Cs_Model.cs_step. by rewrite E.
  Qed.

  Lemma data_cases s f d s' : Inv s -> ev_ok s (EvData f d) ->
    on_incoming_data make_entry rand face_order strategies d f s = Some (s', tt) ->
    exists fc, fw_faces s !! f = Some fc /\ data_case s f d fc s'.
  Proof.
    intros I (Hf & Hwf & Hfr) H. unfold on_incoming_data in H.
    apply bind_Some in H as (s0 & v & [= <- <-] & H). apply bind_Some in H as (s0 & v & [= <- <-] & H).
    apply bind_Some in H as (s0 & fc & [-> Hfc]%face_of_Some & H). simpl in Hfc. exists fc. split; [done|].
    change (set_cnt _ _) with (got (Rx_data f d) inc_in_data s) in H. set (s0 := got _ _ s) in *.
    assert (I0 : Inv s0) by (by apply Inv_got).
    destruct (negb (fc_local fc) && is_localhost (d_name d)) eqn:Es.
    { apply andb_prop in Es as [Es1 Es2]. apply dc_scope; [by destruct (fc_local fc)|done|]. by injection H as <-. }
    apply bind_Some in H as (s00 & s01 & [= <- <-] & H). change (fw_t s0) with (fw_t s) in H.
    pose proof (iv_tab _ I) as It. destruct (pit_matches_ok d (fw_t s) (ti_tree _ It) (ti_pit _ It)) as [Hnd Hin].
    set (l := pit_all_data_matches d (fw_t s)) in *.
    assert (Hks : forall k, matching s d k <-> k ∈ pe_key <$> l).
    { intros k. rewrite elem_of_list_fmap. split.
      - intros (e & He & Hm). exists e. destruct (entry_ok _ _ _ I He) as [_ Hk]. split; [done|]. apply Hin. by rewrite Hk.
      - intros (e & -> & [He Hm]%Hin). by exists e. }
    assert (Hnk : NoDup (pe_key <$> l)).
    { clear -Hnd Hin. assert (Hin' : forall e, e ∈ l -> pit_at (fw_t s) (pe_key e) = Some e) by (intros e He; by apply Hin). clear Hin.
      induction l as [|e l IH]; [constructor|]. apply NoDup_cons in Hnd as [He Hnd]. simpl. constructor; [|apply IH; [done|intros; apply Hin'; by right]].
      intros (e' & Hk & He')%elem_of_list_fmap. apply He. assert (Hee : e = e'); [|by subst].
      assert (H1 : pit_at (fw_t s) (pe_key e) = Some e) by (apply Hin'; by left). assert (H2 : pit_at (fw_t s) (pe_key e') = Some e') by (apply Hin'; by right).
      rewrite Hk in H1. congruence. }
    destruct (pe_key <$> l) as [|k [|k2 ks]] eqn:El.
    - apply dc_unsol; [done| |].
      + intros k Hk%Hks. by apply elem_of_nil in Hk.
      + unfold on_data_unsolicited in H. apply bind_Some in H as (s1 & v & [= <- <-] & H). apply bind_Some in H as (s1 & fc' & [-> Hfc']%face_of_Some & H).
        apply bind_Some in H as (s1 & s2 & [= <- <-] & H). simpl in Hfc'. rewrite Hfc in Hfc'. injection Hfc' as <-. simpl in H.
        destruct (unsol_decide (fw_unsol s) fc); [|by injection H as <-]. eapply cs_insert_case; [|done|exact H]. by apply Inv_cnt, (Inv_log _ s).
    - apply bind_Some in H as (s1 & v1 & H1 & H). apply cs_insert_case in H1; [|done..]. assert (I1 : Inv s1) by (by destruct H1 as (c & _ & -> & ?)).
      assert (Hpit1 : forall k, pit_at (fw_t s1) k = pit_at (fw_t s) k) by (by destruct H1 as (c & _ & -> & _)).
      assert (Hnow1 : now (fw_t s1) = now (fw_t s)) by (by destruct H1 as (c & _ & -> & _)).
      apply bind_Some in H as (s2 & v2 & H2 & H). apply set_expiry_step in H2 as [e W2]; [|done].
      assert (Ez : (now (fw_t s1) + ns_of_ms (Z.max 0 0) = now (fw_t s1))%Z) by apply Z.add_0_r. rewrite Ez, Hnow1 in W2.
      apply bind_Some in H as (s3 & st & Hst & H). unfold strategy_for in Hst. destruct (effective (pk_name k) (fw_t s2)) as [[p inst]|] eqn:Eeff; [|done]. injection Hst as <- <-.
      apply bind_Some in H as (s3 & [] & H3 & H). assert (I2 : Inv s2) by apply W2.
      assert (I3 : Inv s3).
      { unfold after_receive_data in H3. destruct (st_data (strategies inst)) as [q|].
        - assert (Hr : rtc (anyk None k) s2 s3) by (eapply run_satoms; [exact (wo_order _ _ _ W)|done|done|exact H3]). by eapply satoms_inv.
        - apply bind_Some in H3 as (s4 & v4 & H4 & H3). assert (Hr : rtc (anyk None k) s2 s4) by (eapply run_satoms; [exact (wo_order _ _ _ W)|done|done|exact H4]). assert (I4 : Inv s4) by (by eapply satoms_inv).
          destruct (a_data_all _ (wo_order _ _ _ W) None _ _ _ _ _ _ I4 H3) as (e4 & _ & Ha & _). clear -I4 Ha. induction Ha as [|? ? ? Ha Has IH]; [done|]. apply IH. by eapply satom_inv. }
      apply (dc_one _ _ _ _ _ k e s1 s2 s3); [done| | |exact H1|exact W2|by exists p, inst|].
      + rewrite <- Hpit1. exact (proj1 (wrote_at _ _ _ _ _ W2)).
      + intros k'. rewrite Hks. apply elem_of_list_singleton.
      + eapply finish_case; [done|]. exact H.
    - apply bind_Some in H as (s1 & v1 & H1 & H). apply cs_insert_case in H1; [|done..]. assert (I1 : Inv s1) by (by destruct H1 as (c & _ & -> & ?)).
      assert (Hpit1 : forall k, pit_at (fw_t s1) k = pit_at (fw_t s) k) by (by destruct H1 as (c & _ & -> & _)).
      assert (Hnow1 : now (fw_t s1) = now (fw_t s)) by (by destruct H1 as (c & _ & -> & _)).
      apply bind_Some in H as (s2 & pending & H2 & H). destruct (sat_loop_case d f (k :: k2 :: ks) s1 s2 [] pending) as (J1 & J2 & J3); [done|done| |constructor|exact H2|].
      { intros k' Hk'. rewrite Hpit1. apply Hks in Hk' as (e & He & _). by exists e. }
      apply bind_Some in H as (s3 & s4 & [= <- <-] & H).
      eapply (dc_many _ _ _ _ _ (k :: k2 :: ks) s1 s2 pending); [done|done|simpl; lia|done|done|done|done| |done].
      intros g. rewrite J3, Hnow1. setoid_rewrite Hpit1. split; [|by right]. intros [Hg|?]; [by apply elem_of_nil in Hg|done].
  Qed.

  (** ** Nacks *)
  Definition nacked (f nonce reason : N) (e : pit_entry) : pit_entry := set_pe_out (out_nack f nonce reason (pe_out e)) e.
  Inductive nack_case (s : fw) (f : N) (i : interest) (reason : N) (fc : face) (s' : fw) : Prop :=
  | nc_ignored : fc_link fc <> LINK_P2P \/ (forall e r, pit_at (fw_t s) (key_of i) = Some e -> find_out f (pe_out e) = Some r -> fr_nonce (or_rec r) <> i_nonce i) ->
      s' = got (Rx_nack f i reason) inc_in_nacks s -> nack_case s f i reason fc s'
  | nc_processed e r s1 s2 p inst : fc_link fc = LINK_P2P -> pit_at (fw_t s) (key_of i) = Some e -> find_out f (pe_out e) = Some r -> fr_nonce (or_rec r) = i_nonce i ->
      wrote (key_of i) e (nacked f (i_nonce i) reason e) (got (Rx_nack f i reason) inc_in_nacks s) s1 ->
      (if has_pending_out (now (fw_t s)) (nacked f (i_nonce i) reason e) then s2 = s1
       else wrote (key_of i) (nacked f (i_nonce i) reason e) (set_timer (now (fw_t s)) (nacked f (i_nonce i) reason e)) s1 s2) ->
      effective (i_name i) (fw_t s2) = Some (p, inst) ->
      run rand face_order None (key_of i) (st_nack (strategies inst) i reason f (key_of i)) s2 = Some (s', tt) -> nack_case s f i reason fc s'.

  Lemma nack_cases s f i reason s' : Inv s -> on_incoming_nack rand face_order strategies i reason f s = Some (s', tt) ->
    exists fc, fw_faces s !! f = Some fc /\ nack_case s f i reason fc s'.
  Proof.
    intros I H. unfold on_incoming_nack in H.
    apply bind_Some in H as (s0 & v & [= <- <-] & H). apply bind_Some in H as (s0 & v & [= <- <-] & H).
    apply bind_Some in H as (s0 & fc & [-> Hfc]%face_of_Some & H). simpl in Hfc. exists fc. split; [done|].
    change (set_cnt _ _) with (got (Rx_nack f i reason) inc_in_nacks s) in H. set (s0 := got _ _ s) in *.
    assert (I0 : Inv s0) by (by apply Inv_got).
    destruct (is_p2p fc) eqn:Ep; simpl in H.
    2: { apply nc_ignored; [left; unfold is_p2p in Ep; by destruct (fc_link fc)|by injection H as <-]. }
    apply bind_Some in H as (s00 & s01 & [= <- <-] & H). change (fw_t s0) with (fw_t s) in H. pose proof (iv_tab _ I) as It.
    destruct (pit_find i (fw_t s)) as [r0|] eqn:Ef; [|done]. apply pit_find_ok in Ef; [|apply It..]. subst r0.
    destruct (pit_at (fw_t s) (key_of i)) as [e|] eqn:Ee.
    2: { apply nc_ignored; [right; intros e' r'; by rewrite Ee|by injection H as <-]. }
    destruct (find_out f (pe_out e)) as [r|] eqn:Er.
    2: { apply nc_ignored; [|by injection H as <-]. right. intros e' r'. rewrite Ee. intros [= <-]. by rewrite Er. }
    destruct (N.eqb_spec (i_nonce i) (fr_nonce (or_rec r))) as [En|En]; simpl in H.
    2: { apply nc_ignored; [|by injection H as <-]. right. intros e' r'. rewrite Ee. intros [= <-]. rewrite Er. intros [= <-]. congruence. }
    destruct (entry_ok _ _ _ I Ee) as [Hok Hk]. rewrite Hk in H.
    apply bind_Some in H as (s1 & v1 & H1 & H).
    eapply upd_step in H1 as [e1 W1]; [|exact I0|done|..].
    2: { intros e0 _. apply pe_ok_nack. }
    2: { intros e0 _ [E1 E2 E3 E4]. split; simpl; auto. intros r' Hr'. assert (Hx : exists r0, r0 ∈ pe_out e0 /\ fr_face (or_rec r0) = fr_face (or_rec r')).
         { destruct (out_nack_ok f (i_nonce i) reason (pe_out e0)) as [Hfs _]. assert (Hx : fr_face (or_rec r') ∈ rec_faces_out (out_nack f (i_nonce i) reason (pe_out e0))).
           { apply elem_of_list_fmap. by exists r'. } rewrite Hfs in Hx. apply elem_of_list_fmap in Hx as (r0 & ? & ?). by exists r0. }
         destruct Hx as (r0 & Hr0 & <-). by apply E2. }
    destruct (wrote_at _ _ _ _ _ W1) as [He1 He1']. change (pit_at (fw_t s) (key_of i) = Some e1) in He1. rewrite Ee in He1. injection He1 as <-.
    apply bind_Some in H as (s2 & e2 & [-> He2]%entry_Some & H). rewrite He1' in He2. injection He2 as <-.
    apply bind_Some in H as (s2 & v2 & H2 & H). assert (I1 : Inv s1) by apply W1.
    assert (Hn1 : now (fw_t s1) = now (fw_t s)) by exact (sc_now _ _ (wr_core _ _ _ _ _ W1)).
    apply bind_Some in H as (s3 & st & Hst & H). assert (Hnm : i_name (pe_interest e) = i_name i) by exact (f_equal pk_name Hk). rewrite Hnm in Hst. unfold strategy_for in Hst. destruct (effective (i_name i) (fw_t s2)) as [[p inst]|] eqn:Eeff; [|done]. injection Hst as <- <-.
    eapply (nc_processed _ _ _ _ _ _ e r s1 s2 p inst); [unfold is_p2p in Ep; by destruct (fc_link fc)|done|done|done|exact W1| |exact Eeff|exact H].
    fold (nacked f (i_nonce i) reason e) in H2. destruct (has_pending_out (now (fw_t s)) (nacked f (i_nonce i) reason e)); [by injection H2 as <- <-|].
    apply set_expiry_step in H2 as [e2 W2]; [|done]. destruct (wrote_at _ _ _ _ _ W2) as [He2 _]. rewrite He1' in He2. injection He2 as <-.
    assert (Ez : (now (fw_t s1) + ns_of_ms (Z.max 0 0) = now (fw_t s1))%Z) by apply Z.add_0_r. by rewrite Ez, Hn1 in W2.
  Qed.
End case2.
