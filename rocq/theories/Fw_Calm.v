(** What only few events change: the counters of finished PIT entries, the configuration; and how the dead nonce list changes *)
From stdpp Require Import gmap.
From Verif Require Import Lib Name_Model Name_Proof Packet_Model Nt_Model Nt_Spec Nt_Tree Tree_Model Tree_Proof Tab_Model Tab_Spec Tab_At Tab_Fib Tab_Pit Tab_Pit2 Tab_Meas Tab_Sc Tab_Clean Tab_Run Tab_Main Fw_Model Fw_Spec Fw_Inv Fw_Case Fw_Case2 Fw_Case3 Fw_Hist Fw_Acc Fw_Step Fw_Out Fw_Main.
From Verif Require Cs_Model Cs_Spec Cs_Main Cs_Run Dnl_Model Dnl_Spec.

Record calmly (make_entry : name -> N -> Dnl_Model.fingerprint) (s s' : fw) : Prop := {
  cl_sat : c_satisfied (fw_cnt s') = c_satisfied (fw_cnt s);
  cl_unsat : c_unsatisfied (fw_cnt s') = c_unsatisfied (fw_cnt s);
  cl_regions : fw_regions s' = fw_regions s;
  cl_unsol : fw_unsol s' = fw_unsol s;
  cl_hop : fw_hop s' = fw_hop s;
  cl_dnl : exists t, fw_dnl s' = Dnl_Model.dnl_run make_entry (fw_dnl s) t;
}.
Lemma calmly_refl me s : calmly me s s.
Proof. split; try done. by exists []. Qed.
Lemma calmly_trans me s1 s2 s3 : calmly me s1 s2 -> calmly me s2 s3 -> calmly me s1 s3.
Proof.
  intros [A1 A2 A3 A4 A5 [t1 A6]] [B1 B2 B3 B4 B5 [t2 B6]]. split; try congruence. exists (t1 ++ t2). unfold Dnl_Model.dnl_run in *. by rewrite foldl_app, <- A6.
Qed.
Lemma calmly_same me s s' : c_satisfied (fw_cnt s') = c_satisfied (fw_cnt s) -> c_unsatisfied (fw_cnt s') = c_unsatisfied (fw_cnt s) -> fw_regions s' = fw_regions s ->
  fw_unsol s' = fw_unsol s -> fw_hop s' = fw_hop s -> fw_dnl s' = fw_dnl s -> calmly me s s'.
Proof. intros. split; try done. by exists []. Qed.

Section calm.
  Variable sort_nexthops : list nexthop -> list nexthop.
  Variable create_strategy : name -> create_result.
  Variable same_type : name -> name -> bool.
  Variable make_entry : name -> N -> Dnl_Model.fingerprint.
  Variable rand : nat -> nat.
  Variable face_order : list N -> list N.
  Variable strategies : name -> strategy.
  Hypothesis W : world_ok sort_nexthops same_type face_order.
  Notation event_fn := (fw_event sort_nexthops create_strategy same_type make_entry rand face_order strategies).
  Notation step := (fw_step sort_nexthops create_strategy same_type make_entry rand face_order strategies).
  Notation reachable := (fw_reachable sort_nexthops create_strategy same_type make_entry rand face_order strategies).
  Notation calmly := (calmly make_entry).
Definition calm {A} (m : M A) : Prop := forall s s' a, m s = Some (s', a) -> calmly s s'.
Lemma calm_ret {A} (a : A) : calm (ret a).
Proof. intros s s' b [= <- <-]. first [apply calmly_refl|by apply calmly_same]. Qed.
Lemma calm_fail {A} : calm (@fail A).
Proof. done. Qed.
Lemma calm_bind {A B} (m : M A) (q : A -> M B) : calm m -> (forall a, calm (q a)) -> calm (bind m q).
Proof. intros Hm Hq s s' b (s1 & a & H1 & H2)%bind_Some. eapply calmly_trans; [by eapply Hm|by eapply Hq]. Qed.
Lemma calm_get : calm get.
Proof. intros s s' b [= <- <-]. first [apply calmly_refl|by apply calmly_same]. Qed.
Lemma calm_put g : (forall s, calmly s (g s)) -> calm (put g).
Proof. intros H s s' b [= <- <-]. apply H. Qed.
Lemma calm_tab g : calm (tab g).
Proof. intros s s' b. unfold tab. destruct (g (fw_t s)); [|done]. intros [= <- <-]. first [apply calmly_refl|by apply calmly_same]. Qed.
Lemma calm_add n x c : calm (put (fun s => set_dnl (Dnl_Model.dnl_add make_entry (fw_dnl s) n x c) s)).
Proof. apply calm_put. intros s. split; try done. by exists [Dnl_Model.Add n x c]. Qed.
Lemma calm_emit x : calm (emit x).
Proof. apply calm_put. intros s. by apply calmly_same. Qed.
Lemma calm_count x : (forall c, c_satisfied (x c) = c_satisfied c /\ c_unsatisfied (x c) = c_unsatisfied c) -> calm (count x).
Proof. intros Hx. apply calm_put. intros s. apply calmly_same; try done; simpl; apply Hx. Qed.
Lemma calm_each {A} (l : list A) q : (forall a, calm (q a)) -> calm (each l q).
Proof. intros H. induction l; simpl; [apply calm_ret|]. apply calm_bind; [done|]. by intros _. Qed.
Lemma calm_entry k : calm (entry k).
Proof. intros s s' b. unfold entry. destruct (pit_get _ _); [|done]. intros [= <- <-]. first [apply calmly_refl|by apply calmly_same]. Qed.
Lemma calm_face f : calm (face_of f).
Proof. intros s s' b. unfold face_of. destruct (_ !! _); [|done]. intros [= <- <-]. first [apply calmly_refl|by apply calmly_same]. Qed.
Lemma calm_upd k g : calm (upd_entry k g).
Proof. apply calm_bind; [apply calm_entry|]. intros _. apply calm_tab. Qed.
Lemma calm_rand rnd : calm (next_rand rnd).
Proof. intros s s' b [= <- <-]. first [apply calmly_refl|by apply calmly_same]. Qed.
Lemma calm_strategy st n : calm (strategy_for st n).
Proof. intros s s' b. unfold strategy_for. destruct (effective _ _) as [[? ?]|]; [|done]. intros [= <- <-]. first [apply calmly_refl|by apply calmly_same]. Qed.
Lemma calm_insert d u : calm (cs_insert d u).
Proof. intros s s' b. unfold cs_insert. destruct (Cs_Model.cs_insert _ _ _ _); [|done]. intros [= <- <-]. first [apply calmly_refl|by apply calmly_same]. Qed.
Lemma calm_pit_insert i : calm (fun s => match pit_insert i (fw_t s) with Some (T, e, is_new) => Some (set_t T s, (e, is_new)) | None => None end).
Proof. intros s s' x. destruct (pit_insert _ _) as [[[? ?] ?]|]; [|done]. intros [= <- <-]. first [apply calmly_refl|by apply calmly_same]. Qed.
Lemma calm_find i : calm (fun s => match Cs_Model.cs_find (now (fw_t s)) i (fw_cs s) with Some (c, r) => Some (set_cs c s, r) | None => None end).
Proof. intros s s' x. destruct (Cs_Model.cs_find _ _ _) as [[? ?]|]; [|done]. intros [= <- <-]. first [apply calmly_refl|by apply calmly_same]. Qed.
Ltac clm := repeat first
  [ apply calm_ret | apply calm_fail | apply calm_get | apply calm_tab | apply calm_emit | (apply calm_count; by intros []) | apply calm_entry
  | apply calm_face | apply calm_upd | apply calm_rand | apply calm_strategy | apply calm_insert | apply calm_pit_insert | apply calm_find
  | apply calm_add | (apply calm_put; intros ?; by apply calmly_same) | (apply calm_bind; [|intros ?]) | (apply calm_each; intros ?) | done | case_match ].

  Lemma calm_out_data d tok g : calm (on_outgoing_data d tok g).
  Proof. unfold on_outgoing_data. clm. Qed.
  Lemma calm_send_data d tok g k : calm (send_data d tok g k).
  Proof. unfold send_data. clm; try apply calm_out_data. Qed.
  Lemma calm_all d f k : calm (send_data_to_all face_order d f k).
  Proof. unfold send_data_to_all. clm; try apply calm_send_data. Qed.
  Lemma calm_out_interest i g k : calm (on_outgoing_interest i g k).
  Proof. unfold on_outgoing_interest. clm. Qed.
  Lemma calm_out_nack r g k : calm (on_outgoing_nack r g k).
  Proof. unfold on_outgoing_nack. clm. Qed.
  Lemma calm_set_expiry k ms : calm (set_expiry k ms).
  Proof. unfold set_expiry. clm. Qed.
  Lemma calm_run trig k p : calm (run rand face_order trig k p).
  Proof.
    induction p; simpl; clm; eauto; unfold the_interest; clm; try apply calm_out_interest; try apply calm_all; try apply calm_out_nack; try apply calm_set_expiry.
  Qed.
  Lemma calm_dnl k u : calm (insert_dead_nonce_list make_entry rand k u).
  Proof. unfold insert_dead_nonce_list. clm. Qed.
  Lemma calm_loop i f : calm (on_interest_loop strategies i f).
  Proof. unfold on_interest_loop. clm. Qed.
  Lemma calm_miss i f k new : calm (on_cs_miss rand face_order strategies i f k new).
  Proof. unfold on_cs_miss. clm; try first [apply calm_set_expiry|apply calm_out_interest|apply calm_run]. Qed.
  Lemma calm_hit i f k d : calm (on_cs_hit strategies i f k d).
  Proof. unfold on_cs_hit, mark_satisfied. clm; try first [apply calm_set_expiry|apply calm_send_data]. Qed.
  Lemma calm_interest i f : calm (on_incoming_interest make_entry rand face_order strategies i f).
  Proof. unfold on_incoming_interest. clm; try apply calm_loop; try apply calm_hit; try apply calm_miss; try apply calm_run. Qed.
  Lemma calm_satisfy d f ks : forall pend, calm (satisfy_all make_entry rand face_order strategies d f ks pend).
  Proof.
    induction ks as [|k ks IH]; intros pend; simpl; unfold mark_satisfied; clm; try first [apply calm_set_expiry|apply calm_run|apply calm_dnl|apply IH].
  Qed.
  Lemma calm_data d f : calm (on_incoming_data make_entry rand face_order strategies d f).
  Proof.
    unfold on_incoming_data, on_data_unsolicited, after_receive_data, mark_satisfied.
    clm; try first [apply calm_set_expiry|apply calm_run|apply calm_dnl|apply calm_satisfy|apply calm_all|apply calm_out_data].
  Qed.
  Lemma calm_nack i r f : calm (on_incoming_nack rand face_order strategies i r f).
  Proof. unfold on_incoming_nack. clm; try first [apply calm_set_expiry|apply calm_run]. Qed.
  Lemma calm_newhop p nh : calm (on_new_next_hop rand face_order strategies p nh).
  Proof. unfold on_new_next_hop. clm; try apply calm_run. Qed.
  Lemma calm_fib_add p f c : calm (fib_mgr_add sort_nexthops rand face_order strategies p f c).
  Proof.
    unfold fib_mgr_add. clm; try apply calm_newhop; try apply calm_run. intros s s' x. destruct (fib_add_nexthop _ _ _ _ _) as [[? ?]|]; [|done]. intros [= <- <-]. first [apply calmly_refl|by apply calmly_same].
  Qed.

  Definition config_event (ev : event) : Prop := match ev with EvRegions _ | EvUnsol _ | EvHop _ => True | _ => False end.
  Lemma event_calm s ev s' : ~ config_event ev -> (forall k, ev <> EvPitTimer k) -> step s ev = Some s' -> calmly s s'.
  Proof.
    intros Hn Ht H%step_event. assert (Hf : calm (event_fn ev)); [|by eapply Hf].
    destruct ev; simpl in *; try (by destruct Hn); try (by destruct (Ht k));
      try first [apply calm_interest|apply calm_data|apply calm_nack|apply calm_run|apply calm_fib_add]; clm.
    - unfold face_add. clm. intros s1 s2 x. unfold face_add_impl. case_match; [done|]. intros Hx. injection Hx as <- <-. by apply calmly_same.
    - unfold face_add_reserved. clm. intros s1 s2 x. unfold face_add_impl. case_match; [done|]. intros Hx. injection Hx as <- <-. by apply calmly_same.
    - intros s1 s2 x. destruct (Cs_Model.cs_step (fw_cs s1) o) as [[? ?]|]; [|done]. intros [= <- <-]. by apply calmly_same.
    - apply calm_put. intros s1. split; try done. by exists [Dnl_Model.Mark].
    - apply calm_put. intros s1. split; try done. by exists [Dnl_Model.Adjust].
  Qed.

  Lemma dnl_exact k up s s' u : insert_dead_nonce_list make_entry rand k up s = Some (s', u) -> exists e t, pit_at (fw_t s) k = Some e /\    fw_dnl s' = Dnl_Model.dnl_run make_entry (fw_dnl s) t /\ 
    (pe_satisfied e = false -> Forall2 (fun x o => exists c, o = Dnl_Model.Add (pk_name k) x c) (dnl_nonces up e) t).
  Proof.
    unfold insert_dead_nonce_list. intros (s1 & e & [-> He]%entry_Some & H)%bind_Some. exists e. destruct (_ && _); [done|].
    assert (Hg : forall l s, each l (fun x => bind (next_rand rand) (fun c => put (fun s => set_dnl (Dnl_Model.dnl_add make_entry (fw_dnl s) (pk_name k) x c) s))) s = Some (s', u) ->
      exists t, fw_dnl s' = Dnl_Model.dnl_run make_entry (fw_dnl s) t /\ Forall2 (fun x o => exists c, o = Dnl_Model.Add (pk_name k) x c) l t).
    { clear. induction l as [|x l IH]; intros s H; simpl in H.
      - injection H as <- <-. by exists [].
      - apply bind_Some in H as (s1 & v & Hm & H). apply bind_Some in Hm as (s2 & c & [= <- <-] & [= <- <-]).
        destruct (IH _ H) as (t & H1 & H2). exists (Dnl_Model.Add (pk_name k) x (rand (fw_rand s)) :: t). split; [exact H1|]. constructor; [by eexists|done]. }
    destruct (pe_satisfied e) eqn:Es; simpl in H.
    - destruct (_ && _); [|injection H as <- <-; by exists []]. destruct (Hg _ _ H) as (t & H1 & _). by exists t.
    - destruct (Hg _ _ H) as (t & H1 & H2). by exists t.
  Qed.
  Theorem reachable_dnl s : reachable s -> exists h, Dnl_Spec.dnl_after make_entry h (fw_dnl s).
  Proof.
    assert (Hrun : forall h t d d', Dnl_Spec.dnl_after make_entry h d -> d' = Dnl_Model.dnl_run make_entry d t -> exists h', Dnl_Spec.dnl_after make_entry h' d').
    { intros h t d d' (l & d0 & H0 & ->) ->. exists (h ++ t), l, d0. split; [done|]. unfold Dnl_Model.dnl_run. by rewrite foldl_app. }
    induction 1 as [def limit s H|s ev s' Hr [h IH] Ho Hs].
    - unfold fw_new in H. destruct (sc_set_default _ _ _); [|done]. destruct (Dnl_Model.dnl_new DNL_LIFETIME) as [d|] eqn:E; [|done]. injection H as <-. exists []. by exists DNL_LIFETIME, d.
    - assert (Hd : (exists k, ev = EvPitTimer k) \/ config_event ev \/ (~ config_event ev /\ forall k, ev <> EvPitTimer k)).
      { destruct ev; try (by right; left); try (right; right; by split; [intros []|]). left. by eexists. }
      destruct Hd as [[k ->]|[Hd|[H1 H2]]].
      + apply step_event in Hs. destruct (reachable_inv _ _ _ _ _ _ _ W _ Hr) as [I _]. simpl in Hs. apply timer_case in Hs as [e Hz]; [|done].
        destruct (fz_dnl _ _ _ _ _ _ Hz) as (s1 & H1 & ->). apply dnl_exact in H1 as (e1 & t & _ & Ht & _). by eapply Hrun.
      + exists h. replace (fw_dnl s') with (fw_dnl s); [done|]. apply step_event in Hs. destruct ev; try done; simpl in Hs; by injection Hs as <-.
      + destruct (cl_dnl _ _ _ (event_calm _ _ _ H1 H2 Hs)) as [t Ht]. by eapply Hrun.
  Qed.
End calm.
