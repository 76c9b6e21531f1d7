(** multicast, run. *)
From stdpp Require Import gmap.
From Verif Require Import Lib Name_Model Name_Proof Packet_Model Nt_Model Nt_Spec Tree_Model Tree_Proof Tab_Model Tab_Spec Tab_At Tab_Fib Tab_Pit Tab_Pit2 Tab_Sc Tab_Run Tab_Main Fw_Model Fw_Spec Fw_Inv Fw_Case Fw_Case2 Fw_Case3 Fw_Hist Fw_Acc Fw_Step Fw_Out Fw_Main Fw_Data Fw_Ex FwFace_Props St_Model St_Retx St_Spec St_Dec St_Run St_At St_Best.
From Verif Require Cs_Model Cs_Spec Cs_Main Dnl_Model.

Lemma set_rec_find g si l g' : find_out g' (map (set_rec_info g si) l) = set_rec_info g si <$> find_out g' l.
Proof.
  unfold find_out. induction l as [|r l IH]; simpl; [done|]. rewrite IH. assert (E : fr_face (or_rec (set_rec_info g si r)) = fr_face (or_rec r)) by (unfold set_rec_info; by destruct (_ =? _)%N).
  rewrite E. by destruct (_ =? _)%N.
Qed.
Lemma set_rec_other g si g' l : g' <> g -> find_out g' (map (set_rec_info g si) l) = find_out g' l.
Proof.
  intros Hg. rewrite set_rec_find. destruct (find_out g' l) as [r|] eqn:E; [|done]. apply find_out_Some in E as [_ E]. simpl. unfold set_rec_info.
  destruct (N.eqb_spec (fr_face (or_rec r)) g); [congruence|done].
Qed.
(** the record of nexthop [g], before and after its turn *)
Definition turned (c : retx_cfg) (o o' : option out_record) (was_sent : bool) (t : Z) : Prop :=
  match o with
  | None => match o' with None => was_sent = false | Some r' => was_sent = true /\ fr_renewed (or_rec r') = t /\ fr_info (or_rec r') = [] end
  | Some r => exists r' iv, o' = Some r' /\ interval_now c (fr_info (or_rec r)) iv /\
      if was_sent then fr_renewed (or_rec r') = t /\ exists iv', grow c iv = Some iv' /\ stored_interval (fr_info (or_rec r')) (Some iv')
      else fr_renewed (or_rec r') = fr_renewed (or_rec r) /\ stored_interval (fr_info (or_rec r')) (Some iv)
  end.

Section multi.
  Variable rand : nat -> nat.
  Variable face_order : list N -> list N.
  Notation run := (run rand face_order).
  Variables (c : retx_cfg) (i : interest) (f : N) (k : pit_key).
  Hypothesis Hlife : (0 <= i_lifetime i)%Z.

  (** one nexthop *)
  Lemma multi_one nh l s s' e : Inv s -> pit_at (fw_t s) k = Some e ->
    run (Some i) k (multicast_loop c i f k (nh :: l)) s = Some (s', tt) ->
    exists e1 tx s1, did k e e1 tx s s1 /\ run (Some i) k (multicast_loop c i f k l) s1 = Some (s', tt) /\
      (forall g, g <> nh_face nh -> find_out g (pe_out e1) = find_out g (pe_out e)) /\
      ((tx = [] /\ ~ (next_hop_eligible (fw_faces s) f i nh e None = true /\ ~ suppressed c s k (nh_face nh) /\ (i_hop i = Some 0%N -> local_face s (nh_face nh)))) \/
       (tx = [Tx_interest (nh_face nh) (without_token i)] /\ next_hop_eligible (fw_faces s) f i nh e None = true /\ ~ suppressed c s k (nh_face nh) /\ (i_hop i = Some 0%N -> local_face s (nh_face nh)))) /\
      turned c (find_out (nh_face nh) (pe_out e)) (find_out (nh_face nh) (pe_out e1)) (match tx with [] => false | _ => true end) (now (fw_t s)).
  Proof.
    intros I He H. cbn [multicast_loop] in H. apply run_with in H as (e0 & He0 & H). rewrite He in He0. injection He0 as <-. set (g := nh_face nh) in *.
    destruct (entry_ok _ _ _ I He) as [[_ N2 _ _] _].
    (* sending, after the record was looked at: entry e1, state s1 *)
    assert (Hsend : forall e1 s1 q, did k e e1 [] s s1 -> run (Some i) k (PInterest Trigger None false g q) s1 = Some (s', tt) ->
      exists e2 tx s2 b, did k e e2 tx s s2 /\ run (Some i) k (q b) s2 = Some (s', tt) /\
        ((b = true /\ tx = [Tx_interest g (without_token i)] /\ (i_hop i = Some 0%N -> local_face s g) /\ e2 = with_sent g (without_token i) (now (fw_t s)) e1) \/
         (b = false /\ tx = [] /\ ~ (i_hop i = Some 0%N -> local_face s g) /\ e2 = e1))).
    { intros e1 s1 q D Hr. apply run_interest in Hr as (e1' & e2 & tx & s2 & b & D2 & Hr & Hf & Hs & Hcase); [|apply D|done|exists e1; by apply (did_after _ _ _ _ _ _ D)].
      pose proof (did_after _ _ _ _ _ _ D) as E1. rewrite (did_before _ _ _ _ _ _ D2) in E1. injection E1 as ->.
      pose proof (did_trans _ _ _ _ _ _ _ _ _ D D2) as D3. rewrite app_nil_r in D3. exists e2, tx, s2, b. split; [done|]. split; [done|].
      rewrite (sc_now _ _ (dd_core _ _ _ _ _ _ D)) in Hcase. unfold sent, local_face, nonlocal_face, face_exists in Hs, Hf. rewrite (sc_faces _ _ (dd_core _ _ _ _ _ _ D)) in Hs, Hf.
      change (i_hop (without_token i)) with (i_hop i) in Hs. destruct (decide (i_hop i = Some 0%N)) as [Ez|Ez].
      - destruct Hs as [[Hl ->]|[Hnl ->]].
        + left. destruct Hcase as [(-> & -> & _)|(_ & _ & ?)]; [|done]. done.
        + right. destruct Hcase as [(_ & _ & ?)|(-> & -> & _)]; [done|]. split; [done|]. split; [done|]. split; [|done]. intros Hx. destruct (Hx Ez) as (fc & A & B). destruct Hnl as (fc' & A' & B'). congruence.
      - subst tx. left. destruct Hcase as [(-> & -> & _)|(_ & _ & ?)]; [|done]. done. }
    unfold decide_per_upstream in H. destruct (find_out g (pe_out e)) as [r|] eqn:Er.
    - (* known upstream *)
      apply find_out_Some in Er as Er'. destruct Er' as [Hr Hrg]. set (iv := info_interval c (fr_info (or_rec r))) in *. pose proof (interval_is c (fr_info (or_rec r))) as Hiv. fold iv in Hiv.
      unfold within in H. destruct (Z.ltb INT64_MAX (iv * NS_PER_MS)); [done|].
      assert (Hsup : suppressed c s k g <-> (now (fw_t s) - fr_renewed (or_rec r) <? iv * NS_PER_MS)%Z = true).
      { rewrite Z.ltb_lt. unfold suppressed. split.
        - intros (r' & iv' & (e' & He' & Hr' & Hg') & Hiv'%interval_spec & Hlt). rewrite He in He'. injection He' as <-. rewrite <- Hg' in Er. rewrite (elem_find_out _ _ N2 Hr') in Er. injection Er as ->. unfold iv. rewrite Hiv'. exact Hlt.
        - intros Hlt. exists r, iv. split; [by exists e|]. done. }
      destruct (Z.ltb (now (fw_t s) - fr_renewed (or_rec r)) (iv * NS_PER_MS)) eqn:Es.
      + apply run_out_info in H as (e1 & s1 & D & H); [|done]. pose proof (did_before _ _ _ _ _ _ D) as E1. rewrite He in E1. injection E1 as <-.
        exists (with_out_info g (info_set RETX_INFO [iv] (fr_info (or_rec r))) e), [], s1. split; [exact D|]. split; [exact H|]. split; [intros g' Hg'; by apply set_rec_other|].
        split; [left; split; [done|]; intros (_ & Hn & _); apply Hn, Hsup; done|]. simpl. rewrite set_rec_find, Er. simpl. eexists _, iv. split; [done|]. split; [done|]. unfold set_rec_info. rewrite Hrg, N.eqb_refl. simpl. split; [done|apply info_set_stored].
      + apply run_out_info in H as (e1 & s1 & D & H); [|done]. pose proof (did_before _ _ _ _ _ _ D) as E1. rewrite He in E1. injection E1 as <-.
        set (e1 := with_out_info g (info_set RETX_INFO [iv] (fr_info (or_rec r))) e) in *.
        assert (Hns : ~ suppressed c s k g) by (rewrite Hsup; congruence).
        assert (Ho1 : find_out g (pe_out e1) = Some (OutRecord (FaceRecord (fr_face (or_rec r)) (fr_nonce (or_rec r)) (fr_renewed (or_rec r)) (fr_expiry (or_rec r)) (info_set RETX_INFO [iv] (fr_info (or_rec r)))) (or_nack r))).
        { unfold e1. simpl. rewrite set_rec_find, Er. simpl. unfold set_rec_info. by rewrite Hrg, N.eqb_refl. }
        destruct (next_hop_eligible (fw_faces s) f i nh e None) eqn:Ee; simpl in H.
        * apply (Hsend e1) in H as (e2 & tx & s2 & b & D2 & H & Hcase); [|exact D]. destruct Hcase as [(-> & -> & Hz & ->)|(-> & -> & Hz & ->)].
          -- apply run_with in H as (e2 & He2 & H). rewrite (did_after _ _ _ _ _ _ D2) in He2. injection He2 as <-.
             destruct (entry_ok _ _ _ (dd_inv _ _ _ _ _ _ D) (did_after _ _ _ _ _ _ D)) as [[_ N3 _ _] _].
             destruct (insert_out_ok g (without_token i) (now (fw_t s)) (pe_out e1) N3) as (N4 & Hfo). 
             assert (Ho2 : exists r2, find_out g (pe_out (with_sent g (without_token i) (now (fw_t s)) e1)) = Some r2 /\ fr_face (or_rec r2) = g /\ fr_renewed (or_rec r2) = now (fw_t s) /\ fr_info (or_rec r2) = info_set RETX_INFO [iv] (fr_info (or_rec r))).
             { simpl pe_out. rewrite Hfo, decide_True, Ho1 by done. eexists. split; [done|]. by simpl. }
             destruct Ho2 as (r2 & Ho2 & Hr2f & Hr2t & Hr2i). rewrite Ho2 in H. unfold increment_interval in H. rewrite Hr2i in H.
             assert (Eiv : info_interval c (info_set RETX_INFO [iv] (fr_info (or_rec r))) = iv) by (apply interval_spec; left; apply info_set_stored). rewrite Eiv in H.
             destruct (grow c iv) as [iv'|] eqn:Eg; [|done]. apply run_out_info in H as (e3 & s3 & D3 & H); [|apply D2].
             pose proof (did_after _ _ _ _ _ _ D2) as E3. rewrite (did_before _ _ _ _ _ _ D3) in E3. injection E3 as ->.
             pose proof (did_trans _ _ _ _ _ _ _ _ _ D2 D3) as D4. eexists _, _, s3. split; [exact D4|]. split; [exact H|]. split; [|split].
             ++ intros g' Hg'. simpl pe_out. rewrite set_rec_other by done. rewrite Hfo, decide_False by done. by apply set_rec_other.
             ++ right. split; [done|]. split; [done|]. done.
             ++ simpl app. unfold turned. eexists _, iv. split; [unfold with_out_info; cbn [pe_out set_pe_out]; rewrite set_rec_find, Ho2; reflexivity|]. split; [done|]. unfold set_rec_info. rewrite Hr2f, N.eqb_refl. simpl. split; [done|]. exists iv'. split; [done|apply info_set_stored].
          -- exists e1, [], s2. split; [exact D2|]. split; [exact H|]. split; [intros g' Hg'; by apply set_rec_other|]. split; [left; split; [done|]; by intros (_ & _ & ?)|].
             unfold turned. eexists _, iv. split; [exact Ho1|]. split; [done|]. simpl. split; [done|apply info_set_stored].
        * exists e1, [], s1. split; [exact D|]. split; [exact H|]. split; [intros g' Hg'; by apply set_rec_other|]. split; [left; split; [done|]; by intros (? & _)|].
          unfold turned. eexists _, iv. split; [exact Ho1|]. split; [done|]. simpl. split; [done|apply info_set_stored].
    - (* new upstream *)
      assert (Hns : ~ suppressed c s k g).
      { intros (r & iv & (e' & He' & Hr & Hg) & _). rewrite He in He'. injection He' as <-. apply find_out_None in Er. apply Er. unfold rec_faces_out. rewrite <- Hg. by apply (elem_of_list_fmap_1 (fun r => fr_face (or_rec r))). }
      destruct (next_hop_eligible (fw_faces s) f i nh e None) eqn:Ee; simpl in H.
      + apply (Hsend e) in H as (e2 & tx & s2 & b & D2 & H & Hcase); [|by apply did_refl].
        destruct (insert_out_ok g (without_token i) (now (fw_t s)) (pe_out e) N2) as (N4 & Hfo). destruct Hcase as [(-> & -> & Hz & ->)|(-> & -> & Hz & ->)].
        * eexists _, _, s2. split; [exact D2|]. split; [exact H|]. split; [intros g' Hg'; simpl pe_out; by rewrite Hfo, decide_False|]. split; [by right|]. simpl pe_out. rewrite Hfo, decide_True, Er by done. simpl. done.
        * exists e, [], s2. split; [exact D2|]. split; [exact H|]. split; [done|]. split; [left; split; [done|]; by intros (_ & _ & ?)|]. by rewrite Er.
      + exists e, [], s. split; [by apply did_refl|]. split; [exact H|]. split; [done|]. split; [left; split; [done|]; by intros (? & _)|]. by rewrite Er.
  Qed.

  Definition goes (s : fw) (e : pit_entry) (nh : nexthop) : Prop :=
    next_hop_eligible (fw_faces s) f i nh e None = true /\ ~ suppressed c s k (nh_face nh) /\ (i_hop i = Some 0%N -> local_face s (nh_face nh)).
  Lemma suppressed_find s e g : Inv s -> pit_at (fw_t s) k = Some e ->
    suppressed c s k g <-> exists r iv, find_out g (pe_out e) = Some r /\ interval_now c (fr_info (or_rec r)) iv /\ (now (fw_t s) - fr_renewed (or_rec r) < iv * 1000000)%Z.
  Proof.
    intros I He. destruct (entry_ok _ _ _ I He) as [[_ N2 _ _] _]. unfold suppressed. split.
    - intros (r & iv & (e' & He' & Hr & <-) & Hx). rewrite He in He'. injection He' as <-. exists r, iv. split; [by apply elem_find_out|done].
    - intros (r & iv & Hr & Hx). apply find_out_Some in Hr as [Hr Hg]. exists r, iv. split; [by exists e|done].
  Qed.
  Lemma goes_ext s s1 e e1 tx nh : Inv s -> did k e e1 tx s s1 -> find_out (nh_face nh) (pe_out e1) = find_out (nh_face nh) (pe_out e) -> goes s1 e1 nh <-> goes s e nh.
  Proof.
    intros I D Hf. pose proof (dd_core _ _ _ _ _ _ D) as C. unfold goes. rewrite (suppressed_find s1 e1), (suppressed_find s e), Hf, (sc_now _ _ C); [|done|by apply (did_before _ _ _ _ _ _ D)|apply D|by apply (did_after _ _ _ _ _ _ D)].
    unfold local_face, next_hop_eligible. by rewrite (sc_faces _ _ C).
  Qed.
  Lemma multi_loop l s s' e : Inv s -> pit_at (fw_t s) k = Some e -> NoDup (nh_face <$> l) ->
    run (Some i) k (multicast_loop c i f k l) s = Some (s', tt) ->
    let tx_of nh := Tx_interest (nh_face nh) (without_token i) in
    exists e1 tx, did k e e1 tx s s' /\ NoDup tx /\
      (forall g, g ∉ nh_face <$> l -> find_out g (pe_out e1) = find_out g (pe_out e)) /\
      (forall x, x ∈ tx -> exists nh, nh ∈ l /\ x = tx_of nh) /\
      (forall nh, nh ∈ l -> tx_of nh ∈ tx <-> goes s e nh) /\
      (forall nh, nh ∈ l -> exists b, (b = true <-> tx_of nh ∈ tx) /\ turned c (find_out (nh_face nh) (pe_out e)) (find_out (nh_face nh) (pe_out e1)) b (now (fw_t s))).
  Proof.
    intros I He Hnd H tx_of. revert s e I He H. induction l as [|nh l IH]; intros s e I He H.
    - apply run_done in H. subst s'. exists e, []. split; [by apply did_refl|]. split; [constructor|]. split; [done|]. split; [intros x Hx; by apply elem_of_nil in Hx|]. split; intros nh Hx; by apply elem_of_nil in Hx.
    - rewrite fmap_cons in Hnd. apply NoDup_cons in Hnd as [Hni Hnd].
      apply (multi_one nh l s s' e) in H as (e1 & tx1 & s1 & D1 & H & Hsame & Htx1 & Hturn); [|done|done].
      destruct (IH Hnd s1 e1 (dd_inv _ _ _ _ _ _ D1) (did_after _ _ _ _ _ _ D1) H) as (e2 & tx2 & D2 & Hn2 & Ho2 & Hx2 & Hg2 & Ht2).
      assert (Hin1 : forall x, x ∈ tx1 <-> x = tx_of nh /\ goes s e nh).
      { intros x. destruct Htx1 as [[-> Hno]|[-> Hy]].
        - split; [by intros ?%elem_of_nil|]. by intros [_ ?].
        - rewrite elem_of_list_singleton. by split; [intros ->|intros [-> _]]. }
      assert (Hdiff : forall nh', nh' ∈ l -> nh_face nh' <> nh_face nh) by (intros nh' Hh E; apply Hni; rewrite <- E; by apply elem_of_list_fmap_1).
      assert (Hnot2 : tx_of nh ∉ tx2) by (intros (nh' & Hh & [= E])%Hx2; by apply (Hdiff nh' Hh)).
      exists e2, (tx2 ++ tx1). split; [by eapply did_trans|]. split; [|split; [|split; [|split]]].
      + apply NoDup_app. split; [done|]. split; [intros x Hx Hx1; apply Hin1 in Hx1 as [-> _]; done|]. destruct Htx1 as [[-> _]|[-> _]]; [constructor|apply NoDup_singleton].
      + intros g Hg. rewrite fmap_cons, not_elem_of_cons in Hg. destruct Hg as [Hg1 Hg2']. rewrite Ho2 by done. by apply Hsame.
      + intros x [Hx|Hx]%elem_of_app; [apply Hx2 in Hx as (nh' & ? & ->); exists nh'; split; [by right|done]|]. apply Hin1 in Hx as [-> _]. exists nh. split; [left|done].
      + intros nh' [->|Hh]%elem_of_cons; rewrite elem_of_app.
        * split; [intros [?|[_ ?]%Hin1]; done|intros Hg; right; by apply Hin1].
        * rewrite Hg2 by done. rewrite (goes_ext s s1 e e1 tx1); [|done|done|apply Hsame; by apply Hdiff]. split; [intros [?|[[= E] _]%Hin1]; [done|by destruct (Hdiff nh' Hh)]|by left].
      + intros nh' [->|Hh]%elem_of_cons.
        * exists (match tx1 with [] => false | _ => true end). rewrite Ho2 by done. split; [|done]. rewrite elem_of_app. destruct Htx1 as [[-> _]|[-> _]].
          -- split; [done|]. by intros [?|?%elem_of_nil].
          -- split; [intros _; right; left|done].
        * destruct (Ht2 nh' Hh) as (b & Hb & Htu). exists b. rewrite (sc_now _ _ (dd_core _ _ _ _ _ _ D1)) in Htu. rewrite Hsame in Htu by (by apply Hdiff). split; [|done]. rewrite Hb, elem_of_app.
          split; [by left|]. intros [?|[[= E] _]%Hin1]; [done|by destruct (Hdiff nh' Hh)].
  Qed.
End multi.
