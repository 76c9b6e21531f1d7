(** Consequences of the case analysis, in the terms of Fw_Spec *)
From stdpp Require Import gmap.
From Verif Require Import Lib Name_Model Name_Proof Packet_Model Nt_Model Nt_Spec Nt_Tree Tree_Model Tree_Proof Tab_Model Tab_Spec Tab_At Tab_Fib Tab_Pit Tab_Pit2 Tab_Meas Tab_Sc Tab_Clean Tab_Run Tab_Main Fw_Model Fw_Spec Fw_Inv Fw_Case Fw_Case2 Fw_Case3 Fw_Hist Fw_Acc Fw_Step Fw_Out.
From Verif Require Cs_Model Cs_Spec Cs_Main Cs_Run Dnl_Model.

Lemma is_localhost_spec n : is_localhost n = true <-> localhost n.
Proof. unfold is_localhost. rewrite name_prefixb_spec. split; intros [m ->]; by exists m. Qed.
Lemma is_localhop_spec n : is_localhop n = true <-> localhop n.
Proof. unfold is_localhop. rewrite name_prefixb_spec. split; intros [m ->]; by exists m. Qed.
Lemma added_inj s s' l l' : added s s' l -> added s s' l' -> l = l'.
Proof. unfold added. intros H. rewrite H. apply app_inv_tail. Qed.
Lemma obeys_mono (R R' : fw -> Prop) (K K' : fw -> act -> Prop) p : (forall s, R' s -> R s) -> (forall s a, K s a -> K' s a) ->
  forall s, obeys R K s p -> obeys R' K' s p.
Proof.
  intros HR HK. induction p; intros s0 Ho; inversion Ho; subst; constructor; auto.
Qed.
Lemma one_hop_name i j : one_hop i j -> i_name j = i_name i.
Proof. intros [H _]. by injection H. Qed.
Lemma not_waiting_gone s k g : Inv s -> in_gone s k g -> not_waiting s g k.
Proof.
  intros I H r (e & He & Hr & Hf). specialize (H e He). destruct (entry_ok _ _ _ I He) as [[N1 _ _ _] _]. pose proof (elem_find_in _ _ N1 Hr) as Hx. rewrite Hf in Hx. congruence.
Qed.

(** ** Only face events change the face table *)
Definition frozen {A} (m : M A) : Prop := forall s s' a, m s = Some (s', a) -> fw_faces s' = fw_faces s /\ fw_last s' = fw_last s.
Lemma frozen_ret {A} (a : A) : frozen (ret a).
Proof. by intros s s' b [= <- <-]. Qed.
Lemma frozen_fail {A} : frozen (@fail A).
Proof. done. Qed.
Lemma frozen_bind {A B} (m : M A) (q : A -> M B) : frozen m -> (forall a, frozen (q a)) -> frozen (bind m q).
Proof. intros Hm Hq s s' b (s1 & a & H1 & H2)%bind_Some. apply Hm in H1 as [<- <-]. by apply Hq in H2. Qed.
Lemma frozen_get : frozen get.
Proof. by intros s s' b [= <- <-]. Qed.
Lemma frozen_put g : (forall s, fw_faces (g s) = fw_faces s /\ fw_last (g s) = fw_last s) -> frozen (put g).
Proof. intros H s s' b [= <- <-]. apply H. Qed.
Lemma frozen_tab g : frozen (tab g).
Proof. intros s s' b. unfold tab. destruct (g (fw_t s)); [|done]. by intros [= <- <-]. Qed.
Lemma frozen_emit x : frozen (emit x).
Proof. by apply frozen_put. Qed.
Lemma frozen_count x : frozen (count x).
Proof. by apply frozen_put. Qed.
Lemma frozen_each {A} (l : list A) q : (forall a, frozen (q a)) -> frozen (each l q).
Proof. intros H. induction l; simpl; [apply frozen_ret|]. apply frozen_bind; [done|]. by intros _. Qed.
Lemma frozen_entry k : frozen (entry k).
Proof. intros s s' b. unfold entry. destruct (pit_get _ _); [|done]. by intros [= <- <-]. Qed.
Lemma frozen_face f : frozen (face_of f).
Proof. intros s s' b. unfold face_of. destruct (_ !! _); [|done]. by intros [= <- <-]. Qed.
Lemma frozen_upd k g : frozen (upd_entry k g).
Proof. apply frozen_bind; [apply frozen_entry|]. intros _. apply frozen_tab. Qed.
Lemma frozen_rand rand : frozen (next_rand rand).
Proof. by intros s s' b [= <- <-]. Qed.
Lemma frozen_strategy st n : frozen (strategy_for st n).
Proof. intros s s' b. unfold strategy_for. destruct (effective _ _) as [[? ?]|]; [|done]. by intros [= <- <-]. Qed.
Lemma frozen_insert d u : frozen (cs_insert d u).
Proof. intros s s' b. unfold cs_insert. destruct (Cs_Model.cs_insert _ _ _ _); [|done]. by intros [= <- <-]. Qed.
Lemma frozen_pit_insert i : frozen (fun s => match pit_insert i (fw_t s) with Some (T, e, is_new) => Some (set_t T s, (e, is_new)) | None => None end).
Proof. intros s s' x. destruct (pit_insert _ _) as [[[? ?] ?]|]; [|done]. by intros [= <- <-]. Qed.
Lemma frozen_find i : frozen (fun s => match Cs_Model.cs_find (now (fw_t s)) i (fw_cs s) with Some (c, r) => Some (set_cs c s, r) | None => None end).
Proof. intros s s' x. destruct (Cs_Model.cs_find _ _ _) as [[? ?]|]; [|done]. by intros [= <- <-]. Qed.
Ltac frz := repeat first
  [ apply frozen_ret | apply frozen_fail | apply frozen_get | apply frozen_tab | apply frozen_emit | apply frozen_count | apply frozen_entry
  | apply frozen_face | apply frozen_upd | apply frozen_rand | apply frozen_strategy | apply frozen_insert | apply frozen_pit_insert | apply frozen_find
  | (apply frozen_put; done) | (apply frozen_bind; [|intros ?]) | (apply frozen_each; intros ?) | done | case_match ].

Section main.
  Variable sort_nexthops : list nexthop -> list nexthop.
  Variable create_strategy : name -> create_result.
  Variable same_type : name -> name -> bool.
  Variable make_entry : name -> N -> Dnl_Model.fingerprint.
  Variable rand : nat -> nat.
  Variable face_order : list N -> list N.
  Variable strategies : name -> strategy.
  Hypothesis W : world_ok sort_nexthops same_type face_order.
  Notation event_fn := (fw_event sort_nexthops create_strategy same_type make_entry rand face_order strategies).
  Notation step := (fw_step sort_nexthops create_strategy same_type make_entry rand face_order strategies).
  Notation reachable := (fw_reachable sort_nexthops create_strategy same_type make_entry rand face_order strategies).
  Notation reachable_if := (fw_reachable_if sort_nexthops create_strategy same_type make_entry rand face_order strategies).

  Lemma frozen_out_data d tok g : frozen (on_outgoing_data d tok g).
  Proof. unfold on_outgoing_data. frz. Qed.
  Lemma frozen_send_data d tok g k : frozen (send_data d tok g k).
  Proof. unfold send_data. frz; try apply frozen_out_data. Qed.
  Lemma frozen_all d f k : frozen (send_data_to_all face_order d f k).
  Proof. unfold send_data_to_all. frz; try apply frozen_send_data. Qed.
  Lemma frozen_out_interest i g k : frozen (on_outgoing_interest i g k).
  Proof. unfold on_outgoing_interest. frz. Qed.
  Lemma frozen_out_nack r g k : frozen (on_outgoing_nack r g k).
  Proof. unfold on_outgoing_nack. frz. Qed.
  Lemma frozen_set_expiry k ms : frozen (set_expiry k ms).
  Proof. unfold set_expiry. frz. Qed.
  Lemma frozen_run trig k p : frozen (run rand face_order trig k p).
  Proof.
    induction p; simpl; frz; eauto; unfold the_interest; frz; try apply frozen_out_interest; try apply frozen_all; try apply frozen_out_nack; try apply frozen_set_expiry.
  Qed.
  Lemma frozen_dnl k u : frozen (insert_dead_nonce_list make_entry rand k u).
  Proof. unfold insert_dead_nonce_list. frz. Qed.
  Lemma frozen_loop i f : frozen (on_interest_loop strategies i f).
  Proof. unfold on_interest_loop. frz. Qed.
  Lemma frozen_miss i f k new : frozen (on_cs_miss rand face_order strategies i f k new).
  Proof. unfold on_cs_miss. frz; try first [apply frozen_set_expiry|apply frozen_out_interest|apply frozen_run]. Qed.
  Lemma frozen_hit i f k d : frozen (on_cs_hit strategies i f k d).
  Proof. unfold on_cs_hit, mark_satisfied. frz; try first [apply frozen_set_expiry|apply frozen_send_data]. Qed.
  Lemma frozen_interest i f : frozen (on_incoming_interest make_entry rand face_order strategies i f).
  Proof. unfold on_incoming_interest. frz; try apply frozen_loop; try apply frozen_hit; try apply frozen_miss; try apply frozen_run. Qed.
  Lemma frozen_satisfy d f ks : forall pend, frozen (satisfy_all make_entry rand face_order strategies d f ks pend).
  Proof.
    induction ks as [|k ks IH]; intros pend; simpl; unfold mark_satisfied; frz; try first [apply frozen_set_expiry|apply frozen_run|apply frozen_dnl|apply IH].
  Qed.
  Lemma frozen_data d f : frozen (on_incoming_data make_entry rand face_order strategies d f).
  Proof.
    unfold on_incoming_data, on_data_unsolicited, after_receive_data, mark_satisfied.
    frz; try first [apply frozen_set_expiry|apply frozen_run|apply frozen_dnl|apply frozen_satisfy|apply frozen_all|apply frozen_out_data].
  Qed.
  Lemma frozen_nack i r f : frozen (on_incoming_nack rand face_order strategies i r f).
  Proof. unfold on_incoming_nack. frz; try first [apply frozen_set_expiry|apply frozen_run]. Qed.
  Lemma frozen_newhop p nh : frozen (on_new_next_hop rand face_order strategies p nh).
  Proof. unfold on_new_next_hop. frz; try apply frozen_run. Qed.
  Lemma frozen_fib_add p f c : frozen (fib_mgr_add sort_nexthops rand face_order strategies p f c).
  Proof.
    unfold fib_mgr_add. frz; try apply frozen_newhop; try apply frozen_run. intros s s' x. destruct (fib_add_nexthop _ _ _ _ _) as [[? ?]|]; [|done]. by intros [= <- <-].
  Qed.
  Definition face_event (ev : event) : Prop := match ev with EvFaceAdd _ | EvFaceAddReserved _ _ | EvFaceRemove _ => True | _ => False end.
  Lemma event_frozen s ev s' : ~ face_event ev -> step s ev = Some s' -> fw_faces s' = fw_faces s /\ fw_last s' = fw_last s.
  Proof.
    intros Hn H%step_event. assert (Hf : frozen (event_fn ev)); [|by eapply Hf].
    destruct ev; simpl in *; try (by destruct Hn);
      try first [apply frozen_interest|apply frozen_data|apply frozen_nack|apply frozen_run|apply frozen_fib_add]; frz.
    - intros s1 s2 x. destruct (Cs_Model.cs_step (fw_cs s1) o) as [[? ?]|]; [|done]. by intros [= <- <-].
  Qed.
  Lemma add_shape fc s s' : step s (EvFaceAdd fc) = Some s' -> exists id, id = inc64 (fw_last s) /\ (255 < id)%N /\ fw_faces s !! id = None /\
    s' = set_faces (<[id := fc]> (fw_faces s)) id s.
  Proof.
    intros H%step_event. simpl in H. unfold face_add in H. apply bind_Some in H as (s0 & s1 & [= <- <-] & H). unfold FACEID_RESERVED_MAX in H.
    destruct (N.leb_spec (inc64 (fw_last s)) 255); [done|]. unfold face_add_impl in H. destruct (fw_faces s !! inc64 (fw_last s)) eqn:E; [done|]. injection H as <-. by eexists.
  Qed.
  Lemma reserved_shape fc id s s' : step s (EvFaceAddReserved fc id) = Some s' -> (id <= 255)%N /\ fw_faces s !! id = None /\
    s' = set_faces (<[id := fc]> (fw_faces s)) (fw_last s) s.
  Proof.
    intros H%step_event. simpl in H. unfold face_add_reserved in H. apply bind_Some in H as (s0 & s1 & [= <- <-] & H). unfold FACEID_RESERVED_MAX in H.
    destruct (N.ltb_spec 255 id); [done|]. unfold face_add_impl in H. destruct (fw_faces s !! id) eqn:E; [done|]. by injection H as <-.
  Qed.
  Lemma remove_shape f s s' : step s (EvFaceRemove f) = Some s' -> fw_faces s' = delete f (fw_faces s) /\ fw_last s' = fw_last s.
  Proof.
    intros H%step_event. simpl in H. unfold face_remove in H. apply bind_Some in H as (s0 & fc & [-> Hf]%face_of_Some & H). apply bind_Some in H as (s0 & [] & H1 & [= <-]).
    unfold tab in H1. destruct (cleanup_on_face_removal f (fw_t s)); [|done]. by injection H1 as <-.
  Qed.
  Lemma face_stable s ev s' g fc fc' : step s ev = Some s' -> fw_faces s !! g = Some fc -> fw_faces s' !! g = Some fc' -> fc' = fc.
  Proof.
    intros H Hg Hg'. assert (Hd : face_event ev \/ ~ face_event ev) by (destruct ev; ((left; done) || (right; by intros []))). destruct Hd as [Hd|Hd].
    - destruct ev; try done.
      + apply add_shape in H as (id & _ & _ & Hn & ->). simpl in Hg'. rewrite lookup_insert_ne in Hg' by congruence. congruence.
      + apply reserved_shape in H as (_ & Hn & ->). simpl in Hg'. rewrite lookup_insert_ne in Hg' by congruence. congruence.
      + apply remove_shape in H as [H _]. rewrite H in Hg'. apply lookup_delete_Some in Hg' as [_ ?]. congruence.
    - apply event_frozen in H as [H _]; [|done]. rewrite H in Hg'. congruence.
  Qed.

  (** ** Without contracts *)
  Notation any_io := (ev_io (fun _ _ _ _ _ _ => True) (fun _ _ _ _ _ _ => True) (fun _ _ _ _ => True)).
  Lemma obeys_true R p s : obeys R (fun _ _ => True) s p.
  Proof. eapply obeys_mono; [| |apply obeys_any]; done. Qed.
  Lemma event_any s ev s' l x : reachable s -> ev_ok s ev -> step s ev = Some s' -> added s s' l -> x ∈ l -> any_io s s' ev x.
  Proof.
    intros R Ho H%step_event Hl Hx. destruct (reachable_inv _ _ _ _ _ _ _ W _ R) as [I _].
    edestruct (event_io sort_nexthops create_strategy same_type make_entry rand face_order strategies W (fun _ _ _ _ _ _ => True) (fun _ _ _ _ _ _ => True) (fun _ _ _ _ => True)) as (l' & Hl' & Hx'); [..|exact H|]; try done;
      try (intros; apply obeys_true).
    rewrite (added_inj _ _ _ _ Hl Hl') in Hx. by apply Hx'.
  Qed.

  (** ** Scope *)
  Definition KIs (F : gmap N face) (i : interest) (f : N) (k : pit_key) (s : fw) (a : act) : Prop :=
    match a with AInterest _ _ _ g => scope_ok F f (i_name i) g | _ => True end.
  Definition KDs (F : gmap N face) (d : data) (f : N) (k : pit_key) (s : fw) (a : act) : Prop :=
    match a with AInterest _ _ _ g => downstream_ok F k s g | _ => True end.
  Definition KOs (F : gmap N face) (k : pit_key) (s : fw) (a : act) : Prop :=
    match a with AInterest _ _ _ g => downstream_ok F k s g | _ => True end.
  Lemma event_scoped s ev s' l x : (forall inst, scoped (strategies inst)) -> Inv s -> ev_ok s ev -> step s ev = Some s' -> added s s' l -> x ∈ l ->
    ev_io KIs KDs KOs s s' ev x.
  Proof.
    intros Hsc I Ho H%step_event Hl Hx.
    edestruct (event_io sort_nexthops create_strategy same_type make_entry rand face_order strategies W KIs KDs KOs) as (l' & Hl' & Hx'); [..|exact H|]; try done.
    - intros inst F i f k s0 HF. by apply (scoped_interest _ (Hsc inst)).
    - intros inst F d f k s0 HF. by apply (scoped_before _ (Hsc inst)).
    - intros inst p F d f k s0 Hp HF. by apply (scoped_data _ (Hsc inst)).
    - intros inst F i r f k s0 HF. by apply (scoped_nack _ (Hsc inst)).
    - intros inst F nh k s0 HF. by apply (scoped_newhop _ (Hsc inst)).
    - intros inst F arg k s0 HF. by apply (scoped_async _ (Hsc inst)).
    - rewrite (added_inj _ _ _ _ Hl Hl') in Hx. by apply Hx'.
  Qed.
  Lemma scope_interest s ev s' l g j : (forall inst, scoped (strategies inst)) -> Inv s -> ev_ok s ev -> step s ev = Some s' -> added s s' l -> Tx_interest g j ∈ l ->
    (exists f i, ev = EvInterest f i /\ i_nexthop i = Some g /\ key_of j = key_of i) \/
    (localhost (i_name j) -> local_face s g) /\ (localhop (i_name j) -> local_face s g \/ exists f i, local_face s f /\ asks s ev f (key_of j) i).
  Proof.
    intros Hsc I Ho H Hl Hx. eapply event_scoped in Hx; [|done..]. clear Hl H.
    assert (Hdown : forall k lr, lr_ok no_fresh s k lr -> downstream_ok (fw_faces s) k lr g -> key_of j = k ->
      (localhost (i_name j) -> local_face s g) /\ (localhop (i_name j) -> local_face s g \/ exists f i, local_face s f /\ asks s ev f (key_of j) i)).
    { intros k lr [_ L] (f & r & Hr & Hs1 & Hs2) <-. change (pk_name (key_of j)) with (i_name j) in *. split; [exact Hs1|]. intros [Hf|Hg]%Hs2; [|by left].
      right. exists f, (ir_interest r). split; [exact Hf|]. left. by destruct (L f r Hr) as [[]|?]. }
    assert (Hsio : forall k (K : fw -> act -> Prop), (forall lr src nonce nd, lr_ok no_fresh s k lr -> K lr (AInterest src nonce nd g) -> downstream_ok (fw_faces s) k lr g) -> sio no_fresh K k s s' (Tx_interest g j) ->
      (localhost (i_name j) -> local_face s g) /\ (localhop (i_name j) -> local_face s g \/ exists f i, local_face s f /\ asks s ev f (key_of j) i)).
    { intros k K HK Hx'. inversion Hx' as [g' j' fc lr src nonce nd L HK' Hg Hz Hk| |]; subst. eapply Hdown; [exact L|by eapply HK|done]. }
    inversion Hx as [| | | | |f i g' j' fc Hn Ho1 Hg Hz|f i i3 x Ho1 Htok Hnh Hs|f d k x Hm Hs| |f i r k x Hs|inst arg k x Hs|p f c k x Hs]; subst.
    - left. exists f, i. split; [done|]. split; [done|]. apply Ho1.
    - right. inversion Hs as [g' j' fc lr src nonce nd L HK Hg Hz Hk| |]; subst. destruct HK as [HK1 HK2]. assert (Hname : i_name i3 = i_name j) by (rewrite (one_hop_name _ _ Ho1); by injection Hk).
      rewrite Hname in HK1, HK2. split; [exact HK1|]. intros [Hf|Hg']%HK2; [|by left]. right. exists f, i3. split; [exact Hf|]. right. exists i. done.
    - right. eapply Hsio; [|exact Hs]. intros lr src nonce nd _ HK. exact HK.
    - right. eapply Hsio; [|exact Hs]. intros lr src nonce nd _ HK. exact HK.
    - right. eapply Hsio; [|exact Hs]. intros lr src nonce nd _ HK. exact HK.
    - right. eapply Hsio; [|exact Hs]. intros lr src nonce nd _ HK. exact HK.
  Qed.

  (** no out-record under /localhost on a face that is not local *)
  Definition no_bypass (ev : event) : Prop := match ev with EvInterest _ i => localhost (i_name i) -> i_nexthop i = None | _ => True end.
  Lemma if_reachable P s : reachable_if P s -> reachable s.
  Proof. induction 1 as [|s ev s' Hr IH Ho HP Hs]; [by eapply fw_reach_new|by eapply fw_reach_step]. Qed.
  Lemma out_scope s : (forall inst, scoped (strategies inst)) -> reachable_if no_bypass s -> forall k g, has_out s k g -> localhost (pk_name k) -> local_face s g.
  Proof.
    intros Hsc R. induction R as [def limit s H|s ev s' Hr IH Ho HP Hs]; intros k g Hk Hloc.
    { destruct (new_inv _ _ _ _ W _ _ _ H) as (_ & _ & _ & Hp). destruct Hk as (r & e & He & _). by rewrite Hp in He. }
    apply if_reachable in Hr as R. destruct (reachable_inv _ _ _ _ _ _ _ W _ R) as [I _]. pose proof (event_inv sort_nexthops create_strategy same_type make_entry rand face_order strategies W _ _ _ I Ho (step_event _ _ _ _ _ _ _ _ _ _ Hs)) as I'.
    assert (Hex : is_Some (fw_faces s' !! g)).
    { destruct Hk as (r & e & He & Hr' & <-). by eapply (ef_out _ _ (iv_pit _ I' k e He)). }
    assert (Hg : local_face s g).
    { destruct (event_outs sort_nexthops create_strategy same_type make_entry rand face_order strategies W _ _ _ I Ho (step_event _ _ _ _ _ _ _ _ _ _ Hs)) as (l & Hl & Hout).
      destruct (Hout k g Hk) as [Hk'|(j & Hj & <-)]; [by apply (IH k g)|]. change (localhost (i_name j)) in Hloc.
      destruct (scope_interest _ _ _ _ _ _ Hsc I Ho Hs Hl Hj) as [(f & i & -> & Hn & Hkey)|[Hx _]]; [|by apply Hx].
      simpl in HP. assert (Hname : i_name j = i_name i) by (by injection Hkey). rewrite Hname in Hloc. rewrite HP in Hn by done. done. }
    destruct Hg as (fc & Hfc & Hl). destruct Hex as [fc' Hfc']. exists fc'. split; [done|]. by rewrite (face_stable _ _ _ _ _ _ Hs Hfc Hfc').
  Qed.
End main.
