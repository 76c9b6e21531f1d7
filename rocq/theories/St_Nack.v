(** Nacks, run. *)
From stdpp Require Import gmap.
From Verif Require Import Lib Name_Model Name_Proof Packet_Model Nt_Model Nt_Spec Tree_Model Tree_Proof Tab_Model Tab_Spec Tab_At Tab_Fib Tab_Pit Tab_Pit2 Tab_Sc Tab_Run Tab_Main Fw_Model Fw_Spec Fw_Inv Fw_Case Fw_Case2 Fw_Case3 Fw_Hist Fw_Acc Fw_Step Fw_Out Fw_Main Fw_Data Fw_Ex FwFace_Props St_Model St_Retx St_Spec St_Dec St_Run St_At St_Best.
From Verif Require Cs_Model Cs_Spec Cs_Main Dnl_Model.

(** ** The scan *)
Definition known_or_none (r : N) : Prop := r = 0%N \/ known r.
Lemma nack_reason_spec x : (known x /\ nack_reason x = x) \/ (~ known x /\ nack_reason x = 0%N).
Proof.
  unfold nack_reason, known, NACK_CONGESTION, NACK_DUPLICATE, NACK_NO_ROUTE, NACK_NONE.
  destruct (N.eqb_spec x 50), (N.eqb_spec x 100), (N.eqb_spec x 150); simpl; try (left; split; [tauto|done]). right. split; [tauto|done].
Qed.
Lemma severe_step P x least : least_severe P least -> least_severe (fun y => y = x \/ P y) (if less_severe (nack_reason x) least then nack_reason x else least).
Proof.
  intros H. unfold less_severe, NACK_NONE. destruct (nack_reason_spec x) as [[Hk ->]|[Hk ->]].
  - assert (x <> 0)%N by (intros ->; by destruct Hk as [?|[?|?]]). destruct (N.eqb_spec x 0) as [?|_]; [done|].
    destruct H as [(H1 & H2 & H3)|[-> H3]].
    + assert (least <> 0)%N by (intros ->; by destruct H2 as [?|[?|?]]). destruct (N.eqb_spec least 0) as [?|_]; [done|]. destruct (N.ltb_spec x least).
      * left. split; [by left|]. split; [done|]. intros r' [->|Hr'] Hk'; [done|]. specialize (H3 _ Hr' Hk'). lia.
      * left. split; [by right|]. split; [done|]. intros r' [->|Hr'] Hk'; [done|]. by apply H3.
    + simpl. left. split; [by left|]. split; [done|]. intros r' [->|Hr'] Hk'; [done|]. by destruct (H3 _ Hr').
  - simpl. destruct H as [(H1 & H2 & H3)|[-> H3]].
    + left. split; [by right|]. split; [done|]. intros r' [->|Hr'] Hk'; [done|by apply H3].
    + right. split; [done|]. intros r' [->|Hr']; [done|by apply H3].
Qed.
Lemma severe_ext (P Q : N -> Prop) r : (forall x, P x <-> Q x) -> least_severe P r -> least_severe Q r.
Proof.
  intros H [(H1 & H2 & H3)|[-> H3]]; [left|right]; (split; [by try apply H|]); [split; [done|]|]; intros r' Hr'%H; by apply H3.
Qed.
Lemma nack_scan_spec l n last least P : least_severe P least ->
  exists n' last' least', nack_scan l n last least = (n', last', least') /\
    least_severe (fun x => P x \/ exists r, r ∈ l /\ or_nack r = Some x) least' /\
    ((n' = n /\ last' = last /\ forall r, r ∈ l -> or_nack r <> None) \/
     (exists l1 r l2, l = l1 ++ r :: l2 /\ or_nack r = None /\ last' = Some (fr_face (or_rec r)) /\ (n < n')%nat /\ (forall r', r' ∈ l2 -> or_nack r' <> None) /\
        (n' = S n -> forall r', r' ∈ l1 -> or_nack r' <> None) /\ (n' <> S n -> exists r', r' ∈ l1 /\ or_nack r' = None))).
Proof.
  revert n last least P. induction l as [|r l IH]; intros n last least P HP; simpl.
  - exists n, last, least. split; [done|]. split; [|left; split; [done|]; split; [done|]; intros r Hr; by apply elem_of_nil in Hr].
    eapply severe_ext; [|exact HP]. intros x. split; [by left|]. intros [?|(r & Hr & _)]; [done|by apply elem_of_nil in Hr].
  - destruct (or_nack r) as [x|] eqn:E.
    + destruct (IH n last _ _ (severe_step P x least HP)) as (n' & last' & least' & -> & H1 & H2). exists n', last', least'. split; [done|]. split.
      * eapply severe_ext; [|exact H1]. intros y. split.
        -- intros [[->|?]|(r' & Hr' & ?)]; [right; exists r; split; [left|done]|by left|right; exists r'; split; [by right|done]].
        -- intros [?|(r' & [->|Hr']%elem_of_cons & Hy)]; [left; by right| |right; by exists r']. rewrite E in Hy. injection Hy as ->. left. by left.
      * destruct H2 as [(-> & -> & Ha)|(l1 & r1 & l2 & -> & A1 & A2 & A3 & A4 & A5 & A6)].
        -- left. split; [done|]. split; [done|]. intros r' [->|Hr']%elem_of_cons; [congruence|by apply Ha].
        -- right. exists (r :: l1), r1, l2. split; [done|]. split; [done|]. split; [done|]. split; [done|]. split; [done|]. split.
           ++ intros En r' [->|Hr']%elem_of_cons; [congruence|by apply A5].
           ++ intros En. destruct (A6 En) as (r' & ? & ?). exists r'. split; [by right|done].
    + destruct (IH (S n) (Some (fr_face (or_rec r))) least P HP) as (n' & last' & least' & -> & H1 & H2). exists n', last', least'. split; [done|]. split.
      * eapply severe_ext; [|exact H1]. intros y. split.
        -- intros [?|(r' & Hr' & ?)]; [by left|right; exists r'; split; [by right|done]].
        -- intros [?|(r' & [->|Hr']%elem_of_cons & Hy)]; [by left|congruence|right; by exists r'].
      * right. destruct H2 as [(-> & -> & Ha)|(l1 & r1 & l2 & -> & A1 & A2 & A3 & A4 & A5 & A6)].
        -- exists [], r, l. split; [done|]. split; [done|]. split; [done|]. split; [lia|]. split; [done|]. split; [intros _ r' Hr'; by apply elem_of_nil in Hr'|done].
        -- exists (r :: l1), r1, l2. split; [done|]. split; [done|]. split; [done|]. split; [lia|]. split; [done|]. split; [intros; lia|]. intros _. exists r. split; [left|done].
Qed.

Section nack.
  Variable rand : nat -> nat.
  Variable face_order : list N -> list N.
  Notation run := (run rand face_order).

  Lemma run_nack_each trig k reason l s s' e : Inv s -> pit_at (fw_t s) k = Some e -> NoDup l -> run trig k (nack_each reason l PDone) s = Some (s', tt) ->
    exists e' tx, did k e e' tx s s' /\ NoDup tx /\ forall x, x ∈ tx <-> exists g r, g ∈ l /\ p2p_face s g /\ find_in g (pe_in e) = Some r /\ x = Tx_nack g (ir_interest r) reason.
  Proof.
    intros I He Hn H. revert s e I He H. induction l as [|g l IH]; intros s e I He H; cbn [nack_each] in H.
    - apply run_done in H. subst s'. exists e, []. split; [by apply did_refl|]. split; [constructor|]. intros x. split; [by intros ?%elem_of_nil|]. by intros (g & r & ?%elem_of_nil & _).
    - apply NoDup_cons in Hn as [Hni Hn]. apply run_nack in H as (e0 & e1 & tx1 & s1 & D1 & H & Hcase); [|done|by exists e]. pose proof (did_before _ _ _ _ _ _ D1) as E0. rewrite He in E0. injection E0 as <-.
      destruct (IH Hn s1 e1 (dd_inv _ _ _ _ _ _ D1) (did_after _ _ _ _ _ _ D1) H) as (e2 & tx2 & D2 & Hn2 & Hx2).
      assert (Hother : forall g', g' <> g -> find_in g' (pe_in e1) = find_in g' (pe_in e)).
      { intros g' Hg'. destruct Hcase as [(r & _ & _ & -> & _)|(_ & -> & _)]; [|done]. simpl. by apply delete_in_find_other. }
      assert (Hp : forall g', p2p_face s1 g' <-> p2p_face s g') by (intros g'; unfold p2p_face; by rewrite (sc_faces _ _ (dd_core _ _ _ _ _ _ D1))).
      assert (Hin1 : forall x, x ∈ tx1 <-> exists r, p2p_face s g /\ find_in g (pe_in e) = Some r /\ x = Tx_nack g (ir_interest r) reason).
      { intros x. destruct Hcase as [(r & Hpf & Hr & _ & ->)|(Hno & _ & ->)].
        - rewrite elem_of_list_singleton. split; [intros ->; by exists r|]. intros (r' & _ & Hr' & ->). rewrite Hr in Hr'. by injection Hr' as <-.
        - split; [by intros ?%elem_of_nil|]. intros (r' & Hp' & Hr' & _). destruct Hno; [done|congruence]. }
      assert (Hin2 : forall x, x ∈ tx2 <-> exists g' r, g' ∈ l /\ p2p_face s g' /\ find_in g' (pe_in e) = Some r /\ x = Tx_nack g' (ir_interest r) reason).
      { intros x. rewrite Hx2. split; intros (g' & r & A & B & C & D); exists g', r; (split; [done|]); (split; [by apply Hp|]); (split; [|done]).
        - rewrite <- Hother; [done|]. intros ->. done.
        - rewrite Hother; [done|]. intros ->. done. }
      exists e2, (tx2 ++ tx1). split; [by eapply did_trans|]. split.
      + apply NoDup_app. split; [done|]. split.
        * intros x (g' & r & A & _ & _ & ->)%Hin2 (r' & _ & _ & [= E _])%Hin1. subst g'. done.
        * destruct Hcase as [(r & _ & _ & _ & ->)|(_ & _ & ->)]; [apply NoDup_singleton|constructor].
      + intros x. rewrite elem_of_app, Hin1, Hin2. split.
        * intros [(g' & r & A & B)|(r & A)]; [exists g', r; split; [by right|done]|exists g, r; split; [left|done]].
        * intros (g' & r & [->|A]%elem_of_cons & B); [right; by exists r|left; by exists g', r].
  Qed.
End nack.
