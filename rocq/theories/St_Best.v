(** best-route, run. *)
From stdpp Require Import gmap.
From Verif Require Import Lib Name_Model Name_Proof Packet_Model Nt_Model Nt_Spec Tree_Model Tree_Proof Tab_Model Tab_Spec Tab_At Tab_Fib Tab_Pit Tab_Pit2 Tab_Sc Tab_Run Tab_Main Fw_Model Fw_Spec Fw_Inv Fw_Case Fw_Case2 Fw_Case3 Fw_Hist Fw_Acc Fw_Step Fw_Out Fw_Main Fw_Data Fw_Ex FwFace_Props St_Model St_Retx St_Spec St_Dec St_Run St_At.
From Verif Require Cs_Model Cs_Spec Cs_Main Dnl_Model.

Lemma earliest_spec F f i e l best :
  let el h := next_hop_eligible F f i h e None = true in
  match earliest_out F f i l e best with
  | None => exists h, h ∈ l /\ el h /\ find_out (nh_face h) (pe_out e) = None
  | Some None => best = None /\ forall h, h ∈ l -> ~ el h
  | Some (Some h) => exists t, (best = Some (h, t) \/ (h ∈ l /\ el h /\ exists r, find_out (nh_face h) (pe_out e) = Some r /\ fr_renewed (or_rec r) = t)) /\
      (forall h' r, h' ∈ l -> el h' -> find_out (nh_face h') (pe_out e) = Some r -> (t <= fr_renewed (or_rec r))%Z) /\
      (forall b tb, best = Some (b, tb) -> (t <= tb)%Z)
  end.
Proof.
  intros el. revert best. induction l as [|h l IH]; intros best; simpl.
  - destruct best as [[b tb]|]; simpl.
    + exists tb. split; [by left|]. split; [intros h' r Hh; by apply elem_of_nil in Hh|]. by intros ? ? [= <- <-].
    + split; [done|]. intros h Hh. by apply elem_of_nil in Hh.
  - destruct (next_hop_eligible F f i h e None) eqn:Ee; simpl.
    + destruct (find_out (nh_face h) (pe_out e)) as [r|] eqn:Eo; [|exists h; split; [left|done]].
      set (t := fr_renewed (or_rec r)). set (better := match best with None => true | Some (_, b) => (t <? b)%Z end).
      specialize (IH (if better then Some (h, t) else best)). destruct (earliest_out F f i l e _) as [[h1|]|].
      * destruct IH as (t1 & A & B & C).
        assert (Hle : (t1 <= t)%Z).
        { unfold better in C. destruct best as [[b tb]|]; [|by apply (C h t)]. destruct (Z.ltb_spec t tb); [by apply (C h t)|]. specialize (C b tb eq_refl). lia. }
        exists t1. split; [|split].
        -- destruct A as [A|(A1 & A2)]; [|right; split; [by right|done]]. destruct better; [|by left]. injection A as <- <-. right. split; [left|]. split; [done|]. by exists r.
        -- intros h' r' [->|Hh']%elem_of_cons He' Hr'; [|by eapply B]. rewrite Eo in Hr'. by injection Hr' as <-.
        -- intros b tb ->. unfold better in C. destruct (Z.ltb_spec t tb); [lia|by eapply C].
      * destruct IH as [A B]. unfold better in A. destruct best as [[b tb]|]; [|done]. by destruct (t <? tb)%Z.
      * destruct IH as (h1 & A & B). exists h1. split; [by right|done].
    + specialize (IH best). destruct (earliest_out F f i l e best) as [[h1|]|].
      * destruct IH as (t1 & A & B & C). exists t1. split; [destruct A as [A|(A1 & A2)]; [by left|right; split; [by right|done]]|]. split; [|done].
        intros h' r' [->|Hh']%elem_of_cons He' Hr'; [unfold el in He'; congruence|by eapply B].
      * destruct IH as [A B]. split; [done|]. intros h' [->|Hh']%elem_of_cons; [unfold el; congruence|by apply B].
      * destruct IH as (h1 & A & B). exists h1. split; [by right|done].
Qed.

Section best.
  Variable rand : nat -> nat.
  Variable face_order : list N -> list N.
  Notation run := (run rand face_order).

  (** one Interest sent, at the end of a program *)
  Lemma run_last_interest s f i i3 e3 s3 k e1 s1 g s' : ready s f i i3 e3 s3 -> (0 <= i_lifetime i)%Z -> k = key_of i -> did k e3 e1 [] s3 s1 ->
    run (Some i3) k (PInterest Trigger None false g (fun _ => PDone)) s1 = Some (s', tt) ->
    exists j tx, one_hop i j /\ i_nonce j = i_nonce i /\ i_token j = None /\ sent s g j tx /\ added s s' (tx ++ [Rx_interest f i]) /\
      info_of s' k = pe_info e1.
  Proof.
    intros R Hl -> D H. apply run_interest in H as (e & e2 & l & s2 & b & D2 & H & Hx & Hs & Hcase); [|apply D|by rewrite (rd_life _ _ _ _ _ _ R)|exists e1; by apply (did_after _ _ _ _ _ _ D)].
    apply run_done in H. subst s2. exists (without_token i3), l. split; [|split; [|split; [|split; [|split]]]].
    - exact (rd_hop _ _ _ _ _ _ R).
    - exact (rd_nonce _ _ _ _ _ _ R).
    - done.
    - unfold sent, local_face, nonlocal_face in *. by rewrite (sc_faces _ _ (dd_core _ _ _ _ _ _ D)), (rd_faces _ _ _ _ _ _ R) in Hs.
    - unfold added. rewrite (dd_log _ _ _ _ _ _ D2), (dd_log _ _ _ _ _ _ D), (rd_log _ _ _ _ _ _ R). by rewrite <- app_assoc.
    - pose proof (did_after _ _ _ _ _ _ D) as E1. rewrite (did_before _ _ _ _ _ _ D2) in E1. injection E1 as ->.
      unfold info_of. rewrite (did_after _ _ _ _ _ _ D2). by destruct Hcase as [(_ & -> & _)|(_ & -> & _)].
  Qed.
  (** the Interest is turned down *)
  Lemma run_reject s f i i3 e3 s3 k e1 s1 s' : ready s f i i3 e3 s3 -> k = key_of i -> did k e3 e1 [] s3 s1 -> pe_in e1 = pe_in e3 ->
    run (Some i3) k (PNack NACK_NO_ROUTE f (PTimer 0 PDone)) s1 = Some (s', tt) ->
    (p2p_face s f -> exists j, one_hop i j /\ i_nonce j = i_nonce i /\ i_token j = i_token i /\ added s s' [Tx_nack f j NACK_NO_ROUTE; Rx_interest f i]) /\
    (~ p2p_face s f -> added s s' [Rx_interest f i]) /\ info_of s' k = pe_info e1 /\ exists e', pit_at (fw_t s') k = Some e' /\ pe_timer e' = Some (now (fw_t s)).
  Proof.
    intros R -> D Hin H. apply run_nack in H as (e & e2 & l & s2 & D2 & H & Hcase); [|apply D|exists e1; by apply (did_after _ _ _ _ _ _ D)].
    pose proof (did_after _ _ _ _ _ _ D) as E1. rewrite (did_before _ _ _ _ _ _ D2) in E1. injection E1 as ->.
    apply run_timer in H as (e' & s4 & D3 & H); [|apply D2]. apply run_done in H. subst s4.
    pose proof (did_after _ _ _ _ _ _ D2) as E2. rewrite (did_before _ _ _ _ _ _ D3) in E2. injection E2 as ->.
    destruct (rd_in _ _ _ _ _ _ R) as (r & Hr & Hir). assert (Hp : p2p_face s1 f <-> p2p_face s f) by (unfold p2p_face; by rewrite (sc_faces _ _ (dd_core _ _ _ _ _ _ D)), (rd_faces _ _ _ _ _ _ R)).
    assert (Hlog : fw_log s' = l ++ Rx_interest f i :: fw_log s) by (rewrite (dd_log _ _ _ _ _ _ D3), (dd_log _ _ _ _ _ _ D2), (dd_log _ _ _ _ _ _ D), (rd_log _ _ _ _ _ _ R); done).
    rewrite Hp, Hin, Hr in Hcase. split; [|split; [|split]].
    - intros Hpf. destruct Hcase as [(r' & _ & [= <-] & -> & ->)|([?|?] & _)]; [|done|done]. exists i3. rewrite Hir in Hlog. split; [exact (rd_hop _ _ _ _ _ _ R)|]. split; [exact (rd_nonce _ _ _ _ _ _ R)|]. split; [exact (rd_token _ _ _ _ _ _ R)|exact Hlog].
    - intros Hpf. destruct Hcase as [(r' & Hx & _)|(_ & -> & ->)]; [by apply Hp in Hx|exact Hlog].
    - unfold info_of. rewrite (did_after _ _ _ _ _ _ D3). simpl. by destruct Hcase as [(r' & _ & _ & -> & _)|(_ & -> & _)].
    - eexists. split; [exact (did_after _ _ _ _ _ _ D3)|]. simpl. rewrite (sc_now _ _ (dd_core _ _ _ _ _ _ D2)), (sc_now _ _ (dd_core _ _ _ _ _ _ D)), (rd_now _ _ _ _ _ _ R). unfold ns_of_ms, wrap64. f_equal. change (Z.max 0 0) with 0%Z. lia.
  Qed.
  Lemma ready_may_go s f i i3 e s3 nh : face_exists s f -> ready s f i i3 e s3 -> next_hop_eligible (fw_faces s3) f i3 nh e None = true <-> may_go s f (i_name i) (nh_face nh).
  Proof.
    intros Hf R. assert (Hf3 : face_exists s3 f) by (unfold face_exists; by rewrite (rd_faces _ _ _ _ _ _ R)). rewrite (eligible_may_go s3 f i3 nh e Hf3), (ready_name _ _ _ _ _ _ R).
    unfold may_go, face_exists, adhoc_face. by rewrite (rd_faces _ _ _ _ _ _ R).
  Qed.
  Lemma outs_record s k g r : out_record_of s k g r <-> r ∈ outs_of s k /\ fr_face (or_rec r) = g.
  Proof.
    unfold out_record_of, outs_of. split.
    - intros (e & -> & ?). done.
    - destruct (pit_at (fw_t s) k) as [e|]; [by exists e|]. by intros [?%elem_of_nil _].
  Qed.
  Lemma ready_unused s f i i3 e s3 g : ready s f i i3 e s3 -> unused s3 (key_of i) g <-> unused s (key_of i) g.
  Proof.
    intros R. unfold unused. rewrite (rd_now _ _ _ _ _ _ R). assert (Ho : outs_of s3 (key_of i) = outs_of s (key_of i)) by (unfold outs_of at 1; rewrite (rd_at _ _ _ _ _ _ R); apply (rd_out _ _ _ _ _ _ R)).
    split; intros H r Hr; apply H; apply outs_record in Hr; apply outs_record; congruence.
  Qed.
End best.
