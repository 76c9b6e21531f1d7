(** The self-learning strategy, call by call. *)
From stdpp Require Import gmap.
From Verif Require Import Lib Name_Model Name_Proof Packet_Model Nt_Model Nt_Spec Tree_Model Tree_Proof Tab_Model Tab_Spec Tab_At Tab_Fib Tab_Pit Tab_Pit2 Tab_Meas Tab_Sc Tab_Run Tab_Main Fw_Model Fw_Spec Fw_Inv Fw_Case Fw_Case2 Fw_Case3 Fw_Hist Fw_Acc Fw_Step Fw_Out Fw_Main Fw_Data Fw_Loop Fw_Ex FwFace_Props St_Model St_Retx St_Spec St_Dec St_Run St_At St_Best St_Multi St_Nack Acc_Model Acc_Spec Acc_Run Sl_Model Sl_Spec.
From Verif Require Cs_Model Cs_Spec Cs_Main Dnl_Model.

(** * What does not touch the requests *)
Definition keeps {A} (m : M A) : Prop := forall s s' a, m s = Some (s', a) -> fw_priv s' = fw_priv s.
Lemma keeps_ret {A} (a : A) : keeps (ret a).
Proof. by intros s s' b [= <- _]. Qed.
Lemma keeps_fail {A} : keeps (@fail A).
Proof. done. Qed.
Lemma keeps_get : keeps get.
Proof. by intros s s' b [= <- _]. Qed.
Lemma keeps_bind {A B} (m : M A) (k : A -> M B) : keeps m -> (forall a, keeps (k a)) -> keeps (bind m k).
Proof. intros Hm Hk s s' b (s1 & a & H1 & H2)%bind_Some. by rewrite (Hk a _ _ _ H2), (Hm _ _ _ H1). Qed.
Lemma keeps_put f : (forall s, fw_priv (f s) = fw_priv s) -> keeps (put f).
Proof. by intros H s s' b [= <- _]. Qed.
Lemma keeps_tab f : keeps (tab f).
Proof. intros s s' b. unfold tab. destruct (f _); [|done]. by intros [= <- _]. Qed.
Lemma keeps_entry k : keeps (entry k).
Proof. intros s s' e [-> _]%entry_Some. done. Qed.
Lemma keeps_upd k g : keeps (upd_entry k g).
Proof. intros s s' b (e & _ & ->)%upd_entry_Some. done. Qed.
Lemma keeps_face g : keeps (face_of g).
Proof. by intros s s' b [-> _]%face_of_Some. Qed.
Lemma keeps_rand rand : keeps (next_rand rand).
Proof. intros s s' b H. unfold next_rand in H. by injection H as <- _. Qed.
Lemma keeps_each {A} (l : list A) g : (forall x, keeps (g x)) -> keeps (each l g).
Proof. intros H. induction l as [|x l IH]; simpl; [apply keeps_ret|]. apply keeps_bind; [apply H|done]. Qed.
Ltac keeps := repeat (match goal with
  | |- keeps (bind _ _) => apply keeps_bind; [|intros ?]
  | |- keeps (match ?x with _ => _ end) => destruct x
  | |- keeps (ret _) => apply keeps_ret
  | |- keeps fail => apply keeps_fail
  | |- keeps get => apply keeps_get
  | |- keeps (put _) => by apply keeps_put
  | |- keeps (emit _) => by apply keeps_put
  | |- keeps (count _) => by apply keeps_put
  | |- keeps (tab _) => apply keeps_tab
  | |- keeps (entry _) => apply keeps_entry
  | |- keeps (upd_entry _ _) => apply keeps_upd
  | |- keeps (face_of _) => apply keeps_face
  | |- keeps (next_rand _) => apply keeps_rand
  | |- keeps (each _ _) => apply keeps_each; intros ?
  end; simpl).
Fixpoint no_request (p : sprog) : Prop :=
  match p with
  | PDone | PFail => True
  | PRead q => forall s, no_request (q s)
  | PRand q => forall r, no_request (q r)
  | PInterest _ _ _ _ q => forall b, no_request (q b)
  | PDataToAll _ _ q | PNack _ _ q | PTimer _ q | PInfo _ q | PInInfo _ _ q | POutInfo _ _ q | PMeasGet _ q | PMeasExtend _ _ q | PMeasInfo _ _ q => no_request q
  | PPriv _ _ => False
  end.
Lemma run_no_request rand face_order trig k p : no_request p -> keeps (run rand face_order trig k p).
Proof.
  induction p; simpl; intros Hp; try done; try (apply keeps_bind; [|by auto]); keeps; auto.
  - unfold send_interest, the_interest, on_outgoing_interest. keeps.
  - unfold send_data_to_all, send_data, on_outgoing_data. keeps.
  - unfold on_outgoing_nack. keeps.
  - unfold set_expiry. keeps.
Qed.

Definition set_in_info (g : N) (si : sinfo) (r : in_record) : in_record :=
  if (fr_face (ir_rec r) =? g)%N then InRecord (FaceRecord (fr_face (ir_rec r)) (fr_nonce (ir_rec r)) (fr_renewed (ir_rec r)) (fr_expiry (ir_rec r)) si) (ir_interest r) else r.
Definition with_in_info (g : N) (si : sinfo) (e : pit_entry) : pit_entry := set_pe_in (map (set_in_info g si) (pe_in e)) e.
Lemma like_in_info g si e : like e (with_in_info g si e).
Proof.
  assert (H : forall r, like_in r (set_in_info g si r)) by (intros r; unfold set_in_info; destruct (_ =? _)%N; by repeat split).
  split; try done; simpl.
  induction (pe_in e); simpl; constructor; done.
Qed.
Lemma set_in_find g si l g' : find_in g' (map (set_in_info g si) l) = set_in_info g si <$> find_in g' l.
Proof.
  unfold find_in. induction l as [|r l IH]; simpl; [done|]. rewrite IH. assert (E : fr_face (ir_rec (set_in_info g si r)) = fr_face (ir_rec r)) by (unfold set_in_info; by destruct (_ =? _)%N).
  rewrite E. by destruct (_ =? _)%N.
Qed.
Lemma in_rec s k e g r : Inv s -> pit_at (fw_t s) k = Some e -> in_record_of s k g r <-> find_in g (pe_in e) = Some r.
Proof.
  intros I He. destruct (entry_ok _ _ _ I He) as [[N1 _ _ _] _]. unfold in_record_of. split.
  - intros (e' & He' & Hr & <-). rewrite He in He'. injection He' as <-. by apply elem_find_in.
  - intros [A B]%find_in_Some. by exists e.
Qed.
Lemma out_rec s k e g r : Inv s -> pit_at (fw_t s) k = Some e -> out_record_of s k g r <-> find_out g (pe_out e) = Some r.
Proof.
  intros I He. destruct (entry_ok _ _ _ I He) as [[_ N1 _ _] _]. unfold out_record_of. split.
  - intros (e' & He' & Hr & <-). rewrite He in He'. injection He' as <-. by apply elem_find_out.
  - intros [A B]%find_out_Some. by exists e.
Qed.

(** sending an Interest to a list of faces, marking the out-records *)
Fixpoint spread (skip : N -> bool) (mark nd : bool) (k : pit_key) (l : list N) : sprog :=
  match l with
  | [] => PDone
  | g :: l' =>
      let next := spread skip mark nd k l' in
      if skip g then next else PInterest Trigger None mark g (fun sent => if sent : bool then sl_mark g nd k next else next)
  end.
Lemma broadcast_spread F infc i f k l : sl_broadcast F infc i f k l = spread (bc_skips F infc i f) false false k l.
Proof. induction l as [|g l IH]; simpl; [done|]. by rewrite IH. Qed.
Lemma multicast_spread F mark i f e k l : sl_multicast F mark i f e k l = spread (fun g => negb (next_hop_eligible F f i (NextHop g 0) e None)) mark true k (nh_face <$> l).
Proof. induction l as [|g l IH]; simpl; [done|]. by rewrite IH. Qed.
Lemma spread_quiet skip mark nd k l : no_request (spread skip mark nd k l).
Proof. induction l as [|g l IH]; simpl; [done|]. destruct (skip g); [done|]. intros []; [|done]. intros s. destruct (pit_get k (fw_t s)); [|done]. by destruct (find_out _ _). Qed.

Section run.
  Variable rand : nat -> nat.
  Variable face_order : list N -> list N.
  Notation run := (run rand face_order).

  Lemma run_in_info trig k g si q s s' e : Inv s -> pit_at (fw_t s) k = Some e -> run trig k (PInInfo g si q) s = Some (s', tt) ->
    exists s1, did k e (with_in_info g si e) [] s s1 /\ run trig k q s1 = Some (s', tt).
  Proof.
    intros I He (s1 & v & H0 & H)%bind_Some. eapply upd_step in H0 as [e' H0]; [|done|done|..].
    - apply wrote_did in H0. pose proof (did_before _ _ _ _ _ _ H0) as E. rewrite He in E. injection E as <-. exists s1. split; [exact H0|done].
    - intros e' _. apply like_ok, like_in_info.
    - intros e' _. apply like_fine, like_in_info.
  Qed.
  Lemma run_post trig k what v q s s' : Inv s -> run trig k (sl_post what v q) s = Some (s', tt) ->
    exists s1, run trig k q s1 = Some (s', tt) /\ s1 = set_priv ((what, v s) :: fw_priv s) s /\ Inv s1 /\ same_core s s1.
  Proof.
    intros I H. change (run trig k q (set_priv ((what, v s) :: fw_priv s) s) = Some (s', tt)) in H. eexists. split; [exact H|]. split; [done|]. split.
    2: { by split. }
    eapply (satom_inv None (PitKey [] false false) AOther s); [done|]. apply sa_none; [done|by split|apply I|done|done|done|done].
  Qed.

  (** one Interest *)
  Lemma run_send_nd i k mark g q s s' e : Inv s -> pit_at (fw_t s) k = Some e -> (0 <= i_lifetime i)%Z ->
    run (Some i) k (PInterest Trigger None mark g q) s = Some (s', tt) ->
    let j := prepare None mark i in
    exists e1 l s1 b, did k e e1 l s s1 /\ run (Some i) k (q b) s1 = Some (s', tt) /\
      ((b = true /\ leaves s j g /\ e1 = with_sent g j (now (fw_t s)) e /\ l = [Tx_interest g j]) \/
       (b = false /\ ~ leaves s j g /\ e1 = e /\ l = [])).
  Proof.
    intros I He Hlife (s1 & b & H0 & H)%bind_Some j. pose proof H0 as H1. eapply a_interest in H1; [|done|by intros ? [= <-]]. unfold send_interest in H0.
    apply bind_Some in H0 as (s2 & i' & [= <- <-] & H0). change (without_token _) with j in H0.
    assert (Hl : (0 <= i_lifetime j)%Z) by (unfold j, prepare; by destruct mark).
    assert (Hkey : key_of j = key_of i) by (unfold j, prepare; by destruct mark).
    unfold on_outgoing_interest in H0. apply bind_Some in H0 as (s2 & fc & [-> Hf]%face_of_Some & H0). unfold leaves.
    destruct (i_hop j) as [h|] eqn:Eh; [destruct (N.eqb_spec h 0) as [->|Hh]|]; simpl in H0; [destruct (fc_local fc) eqn:El; simpl in H0|..].
    2: { apply bind_Some in H0 as (s2 & u & [= <- <-] & [= <- <-]). exists e, []. eexists. exists false. split; [|split; [exact H|]].
         - split; [by apply Inv_cnt|by split| |done]. split; [done|]. intros k'. simpl. by case_decide; subst.
         - right. split; [done|]. split; [|done]. intros Hx. destruct (Hx eq_refl) as (fc' & A & B). congruence. }
    all: apply bind_Some in H0 as (s2 & u & [= <- <-] & H0); apply bind_Some in H0 as (s2 & u & H2 & H0); apply upd_entry_Some in H2 as (e2 & He2 & ->); rewrite He in He2; injection He2 as <-;
      repeat (apply bind_Some in H0 as (? & ? & Hx & H0); injection Hx as <- <-); injection H0 as <- <-;
      destruct (pit_upd_core k (with_sent g j (now (fw_t s))) s e I He) as (C1 & C2 & C3 & C4); [done|by apply pe_ok_out|];
      exists (with_sent g j (now (fw_t s)) e), [Tx_interest g j]; eexists; exists true; (split; [|split; [exact H|]]);
      [split; [by eapply satom_inv|by apply same_core_io|exact C3|done]|]; left; (split; [done|]); (split; [|done]); intros Hx; try done.
    - by exists fc.
    - by injection Hx as ->.
  Qed.

  Lemma spread_run i k skip mark nd l : forall s s' e, Inv s -> pit_at (fw_t s) k = Some e -> (0 <= i_lifetime i)%Z -> NoDup l ->
    run (Some i) k (spread skip mark nd k l) s = Some (s', tt) ->
    let j := prepare None mark i in let to g := g ∈ l /\ skip g = false /\ leaves s j g in
    exists e1 tx, did k e e1 tx s s' /\ NoDup tx /\ (forall x, x ∈ tx <-> exists g, to g /\ x = Tx_interest g j) /\
      pe_in e1 = pe_in e /\ pe_info e1 = pe_info e /\ pe_timer e1 = pe_timer e /\
      (forall g, to g -> exists r, find_out g (pe_out e1) = Some r /\ info_get SL_OUT (fr_info (or_rec r)) = Some (flag nd)) /\
      (forall g, ~ to g -> find_out g (pe_out e1) = find_out g (pe_out e)).
  Proof.
    induction l as [|h l IH]; intros s s' e I He Hlife Hnd H j to; cbn [spread] in H.
    - apply run_done in H. subst s'. exists e, []. split; [by apply did_refl|]. split; [constructor|]. split; [|split; [done|]; split; [done|]; split; [done|]; split; [|done]].
      + intros x. split; [by intros ?%elem_of_nil|]. by intros (g & (?%elem_of_nil & _) & _).
      + by intros g (?%elem_of_nil & _).
    - apply NoDup_cons in Hnd as [Hni Hnd]. cbv zeta in H. destruct (skip h) eqn:Eh.
      + destruct (IH s s' e I He Hlife Hnd H) as (e1 & tx & D & Hn & Hx & K1 & K2 & K3 & K4 & K5). exists e1, tx.
        assert (Hto : forall g, to g <-> g ∈ l /\ skip g = false /\ leaves s j g).
        { intros g. unfold to. rewrite elem_of_cons. split; [intros ([->|?] & ? & ?); [congruence|done]|intros (? & ? & ?); by split; [right|]]. }
        split; [done|]. split; [done|]. split; [|split; [done|]; split; [done|]; split; [done|]; split].
        * intros x. rewrite Hx. apply base.exist_proper. intros g. by rewrite Hto.
        * intros g Hg%Hto. by apply K4.
        * intros g Hg. apply K5. intros Hg'. by apply Hg, Hto.
      + apply (run_send_nd _ _ _ _ _ _ _ e) in H as (e1 & tx1 & s1 & b & D1 & H & Hc); [|done..]. fold j in Hc.
        (* the mark *)
        assert (Hm : exists e2 s2, did k e e2 tx1 s s2 /\ run (Some i) k (spread skip mark nd k l) s2 = Some (s', tt) /\ pe_in e2 = pe_in e /\ pe_info e2 = pe_info e /\ pe_timer e2 = pe_timer e /\
          (forall g, g <> h -> find_out g (pe_out e2) = find_out g (pe_out e)) /\
          ((leaves s j h /\ tx1 = [Tx_interest h j] /\ exists r, find_out h (pe_out e2) = Some r /\ info_get SL_OUT (fr_info (or_rec r)) = Some (flag nd)) \/ (~ leaves s j h /\ tx1 = [] /\ e2 = e))).
        { destruct Hc as [(-> & Hlv & -> & ->)|(-> & Hlv & -> & ->)].
          - cbv iota in H. unfold sl_mark in H. apply run_with in H as (e1' & E1 & H). rewrite (did_after _ _ _ _ _ _ D1) in E1. injection E1 as <-.
            destruct (entry_ok _ _ _ I He) as [[_ N2 _ _] _]. destruct (insert_out_ok h j (now (fw_t s)) (pe_out e) N2) as (_ & Hfo).
            destruct (find_out h (pe_out (with_sent h j (now (fw_t s)) e))) as [r|] eqn:Er; [|done]. apply run_out_info in H as (e1' & s2 & D2 & H); [|apply D1].
            pose proof (did_before _ _ _ _ _ _ D2) as E1. rewrite (did_after _ _ _ _ _ _ D1) in E1. injection E1 as <-.
            pose proof (did_trans _ _ _ _ _ _ _ _ _ D1 D2) as D. eexists _, s2. split; [exact D|]. split; [exact H|]. split; [done|]. split; [done|]. split; [done|]. split.
            + intros g Hg. cbn [with_out_info set_pe_out pe_out]. rewrite set_rec_other by done. simpl. by rewrite Hfo, decide_False.
            + left. split; [done|]. split; [done|]. eexists. cbn [with_out_info set_pe_out pe_out]. rewrite set_rec_find. simpl in Er |- *. rewrite Er. split; [reflexivity|].
              unfold set_rec_info. assert (fr_face (or_rec r) = h) as -> by (by apply find_out_Some in Er as [_ ?]). rewrite N.eqb_refl. simpl. apply item_get, item_set.
          - exists e, s1. split; [done|]. split; [exact H|]. repeat (split; [done|]). by right. }
        clear Hc H D1. destruct Hm as (e2 & s2 & D2 & H & K1 & K2 & K3 & K4 & Hc). pose proof (dd_core _ _ _ _ _ _ D2) as C.
        destruct (IH s2 s' e2 (dd_inv _ _ _ _ _ _ D2) (did_after _ _ _ _ _ _ D2) Hlife Hnd H) as (e3 & tx2 & D3 & Hn & Hx & L1 & L2 & L3 & L4 & L5).
        assert (Hlv : forall g, leaves s2 j g <-> leaves s j g) by (intros g; unfold leaves, local_face; by rewrite (sc_faces _ _ C)).
        fold j in Hx, L4, L5. setoid_rewrite Hlv in Hx. setoid_rewrite Hlv in L4. setoid_rewrite Hlv in L5.
        assert (Hto : forall g, to g <-> (g = h /\ leaves s j h) \/ (g ∈ l /\ skip g = false /\ leaves s j g)).
        { intros g. unfold to. rewrite elem_of_cons. split; [intros ([->|?] & ? & ?); [by left|by right]|intros [[-> ?]|(? & ? & ?)]; [by split; [left|]|by split; [right|]]]. }
        exists e3, (tx2 ++ tx1). split; [by eapply did_trans|]. split; [|split; [|split; [congruence|]; split; [congruence|]; split; [congruence|]; split]].
        * apply NoDup_app. split; [done|]. destruct Hc as [(_ & -> & _)|(_ & -> & _)]; [|split; [|constructor]; intros ? _ Hz; by apply elem_of_nil in Hz].
          split; [|apply NoDup_singleton]. intros x (g & (Hg & _) & ->)%Hx E%elem_of_list_singleton. by injection E as ->.
        * intros x. rewrite elem_of_app, Hx. setoid_rewrite Hto. split.
          -- intros [(g & Hg & ->)|Hin]; [exists g; by split; [right|]|]. destruct Hc as [(Hl & -> & _)|(_ & -> & _)]; [|by apply elem_of_nil in Hin]. apply elem_of_list_singleton in Hin as ->. exists h. split; [by left|done].
          -- intros (g & [[-> Hg]|Hg] & ->); [|left; by exists g]. right. destruct Hc as [(_ & -> & _)|(? & _)]; [|done]. by apply elem_of_list_singleton.
        * intros g [[-> Hg]|Hg]%Hto; [|by apply L4]. destruct Hc as [(_ & _ & r & Hr & Hi)|(? & _)]; [|done]. exists r. split; [|done]. rewrite L5; [done|]. by intros [? _].
        * intros g Hg. rewrite Hto in Hg. rewrite L5 by tauto. destruct (decide (g = h)) as [->|Hgh]; [|by apply K4]. destruct Hc as [(? & _)|(_ & _ & ->)]; [tauto|done].
  Qed.

  (** Data, to those that are to be answered *)
  Lemma run_each_data k d f l : forall s s' u e, Inv s -> pit_at (fw_t s) k = Some e -> NoDup l -> (forall g, g ∈ l -> is_Some (find_in g (pe_in e)) /\ not_back (fw_faces s) f g = true) ->
    each l (fun g => bind (send_data d None g k) (fun _ => ret tt)) s = Some (s', u) ->
    exists L, did k e (set_pe_in L e) (replies (fw_faces s) d e l) s s' /\ forall g, find_in g L = if bool_decide (g ∈ l) then None else find_in g (pe_in e).
  Proof.
    induction l as [|g l IH]; intros s s' u e I He Hn Hl H; simpl in H.
    { injection H as <- <-. exists (pe_in e). split; [|intros g; by rewrite bool_decide_eq_false_2 by apply not_elem_of_nil]. assert (set_pe_in (pe_in e) e = e) as -> by (by destruct e). by apply did_refl. }
    apply bind_Some in H as (s0 & u0 & H0 & H). apply bind_Some in H0 as (s1 & b1 & H1 & H0). injection H0 as -> _. apply NoDup_cons in Hn as [Hg Hn].
    destruct (Hl g) as [[r Hr] Hb]; [by left|]. destruct (a_data None k d f g s s0 _ e r I He Hr Hb H1) as (Ha & He' & fc & Hfc & Hlog).
    pose proof (satom_core _ _ _ _ _ Ha) as C. destruct (satom_entry _ _ _ _ _ I Ha) as (B1 & _ & _).
    assert (D1 : did k e (set_pe_in (delete_in g (pe_in e)) e) (if negb (fc_local fc) && is_localhost (d_name d) then [] else [Tx_data g d (i_token (ir_interest r))]) s s0).
    { split; [by eapply satom_inv|done| |done]. split; [done|]. intros k'. case_decide as Hk; [by subst|by apply B1]. }
    assert (Ho : forall g', g' <> g -> find_in g' (delete_in g (pe_in e)) = find_in g' (pe_in e)) by (intros; by apply delete_in_find_other).
    destruct (IH s0 s' u _ (dd_inv _ _ _ _ _ _ D1) He' Hn) with (2 := H) as (L & D2 & HL).
    { intros g' Hg'. assert (g' <> g) by (by intros ->). simpl. rewrite Ho by done. rewrite (sc_faces _ _ C). apply Hl. by right. }
    exists L. pose proof (did_trans _ _ _ _ _ _ _ _ _ D1 D2) as D. rewrite (sc_faces _ _ C), (replies_ext _ _ e) in D by (intros g' Hg'; simpl; apply Ho; by intros ->). split.
    - simpl. rewrite Hfc, Hr. exact D.
    - intros g'. rewrite HL. simpl. destruct (decide (g' = g)) as [->|Hgg].
      + rewrite (bool_decide_eq_false_2 (g ∈ l)), (bool_decide_eq_true_2 (g ∈ g :: l)) by (done || left). destruct (entry_ok _ _ _ I He) as [[N1 _ _ _] _]. destruct (delete_in_ok g (pe_in e) N1) as (_ & Hd & _). rewrite Hd. by case_decide.
      + rewrite Ho by done. assert (bool_decide (g' ∈ g :: l) = bool_decide (g' ∈ l)) as ->; [|done]. apply bool_decide_ext. rewrite elem_of_cons. tauto.
  Qed.
  Hypothesis order_ok : forall l, face_order l ≡ₚ l.
  Lemma run_data_to_all trig k d f q s s' e : Inv s -> pit_at (fw_t s) k = Some e -> run trig k (PDataToAll d f q) s = Some (s', tt) ->
    exists L tx s1, did k e (set_pe_in L e) tx s s1 /\ run trig k q s1 = Some (s', tt) /\ answers_all s f k d tx /\ answered_leaves s s1 f k.
  Proof.
    intros I He (s1 & u & H0 & H)%bind_Some. unfold send_data_to_all in H0. apply bind_Some in H0 as (s0 & s2 & [= <- <-] & H0). apply bind_Some in H0 as (s0 & e' & [-> He']%entry_Some & H0). rewrite He in He'. injection He' as <-.
    destruct (entry_ok _ _ _ I He) as [Hok _]. destruct (pending_nodup _ _ Hok (now (fw_t s))) as [Hn Hp]. pose proof Hok as [N1 _ _ _].
    set (l0 := List.filter _ _) in *. assert (Hn' : NoDup l0) by (eapply sublist_NoDup; [apply sublist_filter|done]).
    assert (Hl0 : forall g, g ∈ l0 <-> g ∈ pending_downstreams (now (fw_t s)) e /\ not_back (fw_faces s) f g = true) by (intros g; unfold l0; by rewrite elem_of_list_In, filter_In, <- elem_of_list_In).
    assert (Hface : forall g r, find_in g (pe_in e) = Some r -> is_Some (fw_faces s !! g)) by (intros g r [Hr <-]%find_in_Some; by apply (ef_in _ _ (iv_pit _ I k e He))).
    assert (Hturn : forall g, g ∈ face_order l0 <-> exists r, in_turn s f k g r).
    { intros g. rewrite (order_ok l0), Hl0, pending_elem. unfold in_turn, live. split.
      - intros [(r & Hr & Hg & Ht) Hb]. assert (Hfr : find_in g (pe_in e) = Some r) by (rewrite <- Hg; by apply elem_find_in). destruct (Hface _ _ Hfr) as [fc Hfc]. exists r. split; [split; [by apply (in_rec s k e)|done]|].
        pose proof (proj1 (not_back_spec _ _ _ _ Hfc) Hb) as Hb'. intros E. exists fc. split; [done|by apply Hb'].
      - intros (r & [Hr Ht] & Hb). apply (in_rec s k e) in Hr; [|done|done]. destruct (Hface _ _ Hr) as [fc Hfc]. pose proof (find_in_Some _ _ _ Hr) as [A B]. split; [by exists r|]. apply (not_back_spec _ _ _ _ Hfc). intros E. destruct (Hb E) as (fc' & ? & ?). congruence. }
    assert (Hnd : NoDup (face_order l0)) by (by rewrite order_ok).
    apply (run_each_data k d f _ s s1 u e) in H0 as (L & D & HL); [|done|done|done|].
    2: { intros g Hg. rewrite order_ok in Hg. apply Hl0 in Hg as [Hg ?]. split; [by apply Hp|done]. }
    exists L, (replies (fw_faces s) d e (face_order l0)), s1. split; [done|]. split; [done|]. split; [split; [by apply replies_nodup|]|].
    - intros x. rewrite replies_elem. split.
      + intros (g & fc & r & [r' Ht]%Hturn & Hf & Hr & Hs & ->). exists g, r'. assert (r' = r) as ->; [|split; [done|]; split; [|done]; intros Hlh; exists fc; by split; [|apply Hs]].
        destruct Ht as [[Hr' _] _]. apply (in_rec s k e) in Hr'; [|done|done]. congruence.
      + intros (g & r & Ht & Hs & ->). pose proof Ht as [[Hr _] _]. apply (in_rec s k e) in Hr; [|done|done]. destruct (Hface _ _ Hr) as [fc Hfc]. exists g, fc, r. split; [apply Hturn; by exists r|]. split; [done|]. split; [done|].
        split; [|done]. intros Hlh. destruct (Hs Hlh) as (fc' & ? & ?). congruence.
    - intros g r. rewrite (in_rec s1 k _ g r (dd_inv _ _ _ _ _ _ D) (did_after _ _ _ _ _ _ D)). simpl. rewrite HL, (in_rec s k e g r I He). destruct (bool_decide_reflect (g ∈ face_order l0)) as [Hg|Hg].
      + split; [done|]. intros [Hr Hno]. exfalso. apply Hno. apply Hturn in Hg as [r' Ht]. assert (r' = r) as <-; [|done]. destruct Ht as [[Hr' _] _]. apply (in_rec s k e) in Hr'; [|done|done]. congruence.
      + split; [|by intros []]. intros Hr. split; [done|]. intros Ht. apply Hg, Hturn. by exists r.
  Qed.
End run.
