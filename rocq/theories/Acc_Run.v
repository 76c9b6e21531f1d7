(** The access strategy, call by call. *)
From stdpp Require Import gmap.
From Verif Require Import Lib Name_Model Name_Proof Packet_Model Nt_Model Nt_Spec Tree_Model Tree_Proof Tab_Model Tab_Spec Tab_At Tab_Fib Tab_Pit Tab_Pit2 Tab_Meas Tab_Sc Tab_Run Tab_Main Fw_Model Fw_Spec Fw_Inv Fw_Case Fw_Case2 Fw_Case3 Fw_Hist Fw_Acc Fw_Step Fw_Out Fw_Main Fw_Data Fw_Ex FwFace_Props St_Model St_Retx St_Spec St_Dec St_Run St_At Acc_Model Acc_Spec.
From Verif Require Cs_Model Cs_Spec Cs_Main Dnl_Model.

(** * Strategy info *)
Lemma item_get id v si : info_get id si = Some v <-> item id v si.
Proof.
  unfold info_get, item. induction si as [|[id' v'] si IH]; simpl.
  - split; [done|]. intros (si1 & si2 & E & _). by destruct si1.
  - destruct (N.eqb_spec id' id) as [->|Hid]; simpl.
    + split; [intros [= ->]; by exists [], si|]. intros (si1 & si2 & E & F). destruct si1 as [|x si1]; [by injection E as -> ->|].
      injection E as <- E. apply Forall_cons in F as [F _]. done.
    + rewrite IH. split.
      * intros (si1 & si2 & -> & F). exists ((id', v') :: si1), si2. split; [done|]. by constructor.
      * intros (si1 & si2 & E & F). destruct si1 as [|x si1]; [by injection E as -> _ _|]. injection E as <- ->. apply Forall_cons in F as [_ F]. by exists si1, si2.
Qed.
Lemma item_set id v si : item id v (info_set id v si).
Proof. exists [], (List.filter (fun x => negb (fst x =? id)%N) si). split; [done|constructor]. Qed.
Lemma del_item id si : no_item id (info_del id si).
Proof.
  apply Forall_forall. intros x Hx. apply elem_of_list_In, List.filter_In in Hx as [_ Hx]. destruct (N.eqb_spec (fst x) id); done.
Qed.
Lemma no_item_none id si : no_item id si <-> info_get id si = None.
Proof.
  unfold info_get, no_item. induction si as [|[id' v'] si IH]; simpl; [by split; [|constructor]|]. rewrite Forall_cons, IH. simpl.
  destruct (N.eqb_spec id' id); simpl; [by split; [intros []|]|]. split; [by intros []|done].
Qed.
Lemma kept_del id si : rest_kept id si (info_del id si).
Proof.
  intros id' v Hid. unfold info_del. rewrite !elem_of_list_In, List.filter_In. simpl. destruct (N.eqb_spec id' id); [done|]. simpl. tauto.
Qed.
Lemma kept_set id v si : rest_kept id si (info_set id v si).
Proof.
  intros id' v' Hid. unfold info_set. rewrite elem_of_cons, <- (kept_del id si id' v' Hid). unfold info_del. split; [|by right]. intros [[= -> _]|?]; done.
Qed.

(** * Strategy choices *)
Lemma same_strategy_spec s k n : tree_ok (fw_t s) -> same_strategy s k n = true <-> same_choice s (pk_name k) n.
Proof.
  intros Ht. unfold same_strategy, same_choice. split.
  - destruct (effective (pk_name k) (fw_t s)) as [[p i]|] eqn:E1; [|done]. destruct (effective n (fw_t s)) as [[q j]|] eqn:E2; [|done]. intros ->%name_eqb_eq.
    apply effective_ok in E1, E2; [|done|done]. exists q, i. split; [done|]. destruct E1 as [_ E1], E2 as [E2 E3]. split; [done|congruence].
  - intros (p & i & H1%effective_ok & H2%effective_ok); [|done|done]. rewrite H1, H2. apply name_eqb_refl.
Qed.
Lemma lpm_meas n T : tree_ok T ->
  match meas_lpm n (fun _ => true) T with
  | Some m => exists p, longest_defined (fun x => meas_at T x) n p /\ meas_at T p = Some m
  | None => forall p, p `prefix_of` n -> meas_at T p = None
  end.
Proof.
  intros [C D]. unfold meas_lpm. set (sel := fun _ e => _). destruct (t_lpm_ok nte_empty has_tables (take MAX_DEPTH n) sel (tr T) D) as [H1 H2].
  assert (Hd : forall q, is_Some (meas_at T q) <-> exists e, tr T !! q = Some e /\ sel q e = true).
  { intros q. unfold meas_at, sel. split.
    - intros [m Hm]. destruct (tr T !! q) as [e|]; [|done]. exists e. split; [done|]. by rewrite Hm.
    - intros (e & -> & He). by destruct (e_meas e). }
  assert (Hp : forall q, is_Some (meas_at T q) -> q `prefix_of` n <-> q `prefix_of` take MAX_DEPTH n).
  { intros q Hq. apply Hd in Hq as (e & He & _). assert (Hl : (length q <= 32)%nat) by (apply D; by exists e). split.
    - intros [x ->]. rewrite take_app_ge by (unfold MAX_DEPTH; lia). by eexists.
    - intros H. etransitivity; [exact H|]. exists (drop MAX_DEPTH n); by rewrite take_drop. }
  destruct (t_lpm (take MAX_DEPTH n) sel (tr T)) as [[p e]|] eqn:E; simpl in H1.
  - destruct H1 as [(Hp1 & Hp2) Hmax]. pose proof (H2 p e eq_refl) as He. destruct Hp2 as (e' & He' & Hs). rewrite He in He'. injection He' as <-.
    assert (Hm : meas_at T p = e_meas e) by (unfold meas_at; by rewrite He). unfold sel in Hs. destruct (e_meas e) as [m|]; [|done]. exists p. split; [|done].
    split; [apply Hp; [by rewrite Hm|done]|]. split; [by rewrite Hm|]. intros q Hq1 Hq2. apply Hmax. split; [by apply Hp|by apply Hd].
  - intros p Hpn. destruct (meas_at T p) as [m|] eqn:Em; [|done]. exfalso. apply (H1 p). split; [apply Hp; [by rewrite Em|done]|]. apply Hd. by rewrite Em.
Qed.

Lemma remembers_spec s k g l : tree_ok (fw_t s) -> meas_ok (fw_t s) -> find_prefix_meas s k = Some (g, l) <-> remembers s (pk_name k) g l.
Proof.
  intros Ht Hm. unfold find_prefix_meas, remembers. pose proof (lpm_meas (pk_name k) (fw_t s) Ht) as Hl.
  destruct (meas_lpm (pk_name k) (fun _ => true) (fw_t s)) as [m|].
  - destruct Hl as (p & Hp & Hpm). destruct (proj1 Hm p m Hpm) as (Hname & _).
    assert (Hgo : forall q m', longest_defined (fun x => meas_at (fw_t s) x) (pk_name k) q -> meas_at (fw_t s) q = Some m' -> q = p /\ m' = m).
    { intros q m' Hq Hq'. pose proof (longest_defined_fun _ _ _ _ Hq Hp) as ->. split; [done|congruence]. }
    rewrite Hname. destruct (same_strategy s k p) eqn:Es.
    + apply same_strategy_spec in Es; [|done]. split.
      * destruct (info_get ACCESS_MEAS (me_info m)) as [[|z l']|] eqn:Ei; try done. intros [= <- <-]. apply item_get in Ei. by exists p, m, z.
      * intros (q & m' & z & H1 & H2 & H3 & H4%item_get & ->). destruct (Hgo q m' H1 H2) as [-> ->]. unfold ACCESS_MEAS. by rewrite H4.
    + split; [done|]. intros (q & m' & z & H1 & H2 & H3 & _). destruct (Hgo q m' H1 H2) as [-> ->]. apply same_strategy_spec in H3; [|done]. congruence.
  - split; [done|]. intros (p & m & z & (Hp & _ & _) & Hpm & _). by rewrite (Hl p Hp) in Hpm.
Qed.

(** * Measurements *)
Record measured (p : name) (v : meas_entry) (s s' : fw) : Prop := {
  mm_inv : Inv s';
  mm_core : same_core s s';
  mm_pits : forall k, pit_at (fw_t s') k = pit_at (fw_t s) k;
  mm_log : fw_log s' = fw_log s;
  mm_at : forall q, meas_at (fw_t s') q = if decide (q = p) then Some v else meas_at (fw_t s) q;
}.
Lemma tab_measured g p v s s' u : Inv s -> tab g s = Some (s', u) ->
  (forall T, g (fw_t s) = Some T -> tab_inv T /\ pit_n T = pit_n (fw_t s) /\ only_meas_at p (Some v) (fw_t s) T) -> measured p v s s'.
Proof.
  intros I H0 Hg. pose proof H0 as H. unfold tab in H. destruct (g (fw_t s)) as [T|] eqn:E; [|done]. injection H as <- _.
  destruct (Hg T eq_refl) as (It & Hpn & Hm). pose proof (only_meas_frame _ _ _ _ Hm) as (Ha & [Hf _] & [Hp _] & [Hs _] & Hn).
  split; [|by apply core_t|exact Hp|done|exact Ha].
  apply (satom_inv None (PitKey [] false false) AOther s); [done|]. apply sa_none; [done|by apply core_t|done|exact Hp|done|done|done].
Qed.
Section run.
  Variable rand : nat -> nat.
  Variable face_order : list N -> list N.
  Notation run := (run rand face_order).
  Lemma run_meas_get trig k n q s s' : Inv s -> run trig k (PMeasGet n q) s = Some (s', tt) ->
    let p := depth_cut n in exists s1, measured p (default (fresh_meas p (now (fw_t s))) (meas_at (fw_t s) p)) s s1 /\ run trig k q s1 = Some (s', tt).
  Proof.
    intros I (s1 & u & H0 & H)%bind_Some p. exists s1. split; [|done]. eapply tab_measured; [done|exact H0|]. intros T. pose proof (iv_tab _ I) as It. unfold meas_get. fold (depth_cut n). fold p.
    destruct (meas_get_at_ok p (fw_t s) (ti_tree _ It) (ti_meas _ It)) as (T1 & T' & -> & -> & G1 & G2 & G3 & _).
    { unfold p, depth_cut. rewrite take_length. unfold MAX_DEPTH. lia. }
    intros [= <-]. split; [eapply only_meas_inv; [exact It|done|done|exact G3]|]. split; [apply G3|exact G3].
  Qed.
  Lemma run_meas_extend trig k p life q s s' : Inv s -> run trig k (PMeasExtend p life q) s = Some (s', tt) ->
    exists m m' s1, meas_at (fw_t s) p = Some m /\ me_info m' = me_info m /\ me_name m' = me_name m /\ me_expiry m' = Z.max (me_expiry m) (now (fw_t s) + life) /\
      measured p m' s s1 /\ run trig k q s1 = Some (s', tt).
  Proof.
    intros I (s1 & u & H0 & H)%bind_Some. pose proof (iv_tab _ I) as It.
    assert (Hm : is_Some (meas_at (fw_t s) p)).
    { unfold tab, meas_extend in H0. unfold meas_at. destruct (tr (fw_t s) !! p) as [e|]; [destruct (e_meas e); [by eexists|done]|done]. }
    destruct Hm as [m Hm]. destruct (proj1 (ti_meas _ It) p m Hm) as (Hn1 & Hn2 & Hn3).
    destruct (meas_extend_ok p life (fw_t s) m (ti_tree _ It) (ti_meas _ It) Hm) as (T' & HT' & G1 & G2 & G3 & _). eexists m, _, s1. split; [done|].
    split; [|split; [|split; [|split; [|exact H]]]]; cycle 3.
    - eapply tab_measured; [done|exact H0|]. intros T HT. rewrite HT' in HT. injection HT as <-. split; [eapply only_meas_inv; [exact It|done|done|exact G3]|]. split; [apply G3|exact G3].
    - by destruct (_ <? _)%Z.
    - by destruct (_ <? _)%Z.
    - destruct (Z.ltb_spec (me_expiry m) (now (fw_t s) + life)); simpl; lia.
  Qed.
  Lemma run_meas_info trig k p si q s s' m : Inv s -> meas_at (fw_t s) p = Some m -> run trig k (PMeasInfo p si q) s = Some (s', tt) ->
    exists s1, measured p (MeasEntry (me_name m) (me_expiry m) (me_timer m) si) s s1 /\ run trig k q s1 = Some (s', tt).
  Proof.
    intros I Hm (s1 & u & H0 & H)%bind_Some. exists s1. split; [|done]. eapply tab_measured; [done|exact H0|]. intros T HT. pose proof (iv_tab _ I) as It.
    assert (HT' : T = upd p (fun e => set_meas (option_map (fun m => MeasEntry (me_name m) (me_expiry m) (me_timer m) si) (e_meas e)) e) (fw_t s)).
    { cbv beta in HT. unfold meas_at in Hm. destruct (tr (fw_t s) !! p) as [e|]; [|done]. destruct (e_meas e) as [m'|]; [|done]. by injection HT as <-. }
    subst T. set (T' := upd _ _ _).
    assert (Hoo : only_meas_at p (Some (MeasEntry (me_name m) (me_expiry m) (me_timer m) si)) (fw_t s) T').
    { split; [|done]. intros k'. unfold T'. rewrite upd_att by (apply meas_at_present; by eexists). case_decide; [|done]. rewrite meas_at_att in Hm. by rewrite Hm. }
    destruct (proj1 (ti_meas _ It) p m Hm) as (Hn1 & Hn2 & Hn3). split; [|split; [done|done]]. eapply only_meas_inv; [exact It| | |exact Hoo].
    - apply upd_tree_ok, It.
    - by eapply meas_set_ok; [apply It|exact Hoo|exact Hm|..].
  Qed.

  (** sending an Interest, from whichever source *)
  Lemma run_send trig k src i g q s s' e : Inv s -> pit_at (fw_t s) k = Some e -> (forall j, trig = Some j -> (0 <= i_lifetime j)%Z) -> src_interest trig e src = Some i ->
    run trig k (PInterest src None false g q) s = Some (s', tt) ->
    exists e1 l s1 b, did k e e1 l s s1 /\ run trig k (q b) s1 = Some (s', tt) /\ face_exists s g /\
      ((b = true /\ leaves s (without_token i) g /\ e1 = with_sent g (without_token i) (now (fw_t s)) e /\ l = [Tx_interest g (without_token i)]) \/
       (b = false /\ ~ leaves s (without_token i) g /\ e1 = e /\ l = [])).
  Proof.
    intros I He Hl Hi (s1 & b & H0 & H)%bind_Some. pose proof H0 as H1. eapply a_interest in H1; [|done|done]. unfold send_interest in H0.
    apply bind_Some in H0 as (s2 & i' & Hi' & H0).
    assert (Hii : s2 = s /\ i' = i).
    { destruct src; simpl in Hi, Hi'.
      - subst trig. by injection Hi' as <- <-.
      - apply bind_Some in Hi' as (s3 & e3 & [-> He3]%entry_Some & [= <- <-]). rewrite He in He3. injection He3 as <-. by injection Hi as <-.
      - apply bind_Some in Hi' as (s3 & e3 & [-> He3]%entry_Some & Hi'). rewrite He in He3. injection He3 as <-. destruct (find_in _ _) as [r|]; [|done]. injection Hi' as <- <-. by injection Hi as <-. }
    destruct Hii as [-> ->]. clear Hi'.
    assert (Hlife : (0 <= i_lifetime i)%Z).
    { destruct src as [| |g']; simpl in Hi; [by apply Hl|injection Hi as <-; by apply (iv_pit _ I k e)|]. destruct (find_in g' (pe_in e)) as [r|] eqn:Er; [|done]. injection Hi as <-. apply find_in_Some in Er as [Er _]. by apply (iv_pit _ I k e He). }
    unfold on_outgoing_interest in H0. apply bind_Some in H0 as (s2 & fc & [-> Hf]%face_of_Some & H0). unfold leaves.
    change (i_hop (without_token i)) with (i_hop i) in *. destruct (i_hop i) as [h|] eqn:Eh; [destruct (N.eqb_spec h 0) as [->|Hh]|]; simpl in H0; [destruct (fc_local fc) eqn:El; simpl in H0|..].
    2: { apply bind_Some in H0 as (s2 & u & [= <- <-] & [= <- <-]). exists e, []. eexists. exists false. split; [|split; [exact H|]].
         - split; [by apply Inv_cnt|by split| |done]. split; [done|]. intros k'. simpl. by case_decide; subst.
         - split; [by exists fc|]. right. split; [done|]. split; [|done]. intros Hx. destruct (Hx eq_refl) as (fc' & A & B). congruence. }
    all: apply bind_Some in H0 as (s2 & u & [= <- <-] & H0); apply bind_Some in H0 as (s2 & u & H2 & H0); apply upd_entry_Some in H2 as (e2 & He2 & ->); rewrite He in He2; injection He2 as <-;
      repeat (apply bind_Some in H0 as (? & ? & Hx & H0); injection Hx as <- <-); injection H0 as <- <-;
      destruct (pit_upd_core k (with_sent g (without_token i) (now (fw_t s))) s e I He) as (C1 & C2 & C3 & C4); [done|by apply pe_ok_out|];
      exists (with_sent g (without_token i) (now (fw_t s)) e), [Tx_interest g (without_token i)]; eexists; exists true; (split; [|split; [exact H|]]);
      [split; [by eapply satom_inv|by apply same_core_io|exact C3|done]|]; (split; [by exists fc|]); left; (split; [done|]); (split; [|done]); intros Hx; try done.
    - by exists fc.
    - by injection Hx as ->.
  Qed.
  Lemma src_kept trig e e1 src : (forall f, find_in f (pe_in e1) = find_in f (pe_in e)) -> pe_interest e1 = pe_interest e -> src_interest trig e1 src = src_interest trig e src.
  Proof. intros H1 H2. destruct src; simpl; [done|by rewrite H2|by rewrite H1]. Qed.

  (** multicast *)
  Lemma skips_spec s infc i f ex h : fw_faces s !! f = Some infc -> face_exists s (nh_face h) ->
    skips (fw_faces s) infc i f ex h = false <-> may_pass s f (i_name i) (nh_face h) /\ nh_face h <> ex.
  Proof.
    intros Hf [fc Hg]. unfold skips, may_pass. rewrite Hg. destruct (N.eqb_spec (nh_face h) f); simpl; [split; [done|by intros [[? _] ?]]|]. destruct (N.eqb_spec (nh_face h) ex); simpl; [split; [done|by intros [[? _] ?]]|].
    pose proof (eligible_may_go s f i h (new_pit_entry i) ltac:(by exists infc)) as He. unfold next_hop_eligible, may_go in He. rewrite Hf, Hg in He.
    destruct (N.eqb_spec (nh_face h) f); simpl in He; [done|]. destruct (would_violate_scope infc i fc).
    - split; [done|]. intros [[_ Hsc] _]. exfalso. assert (false = true) by (apply He; split; [by exists fc|]; done). done.
    - split; [|done]. intros _. destruct He as [He _]. destruct (He eq_refl) as (_ & _ & ?). done.
  Qed.
  Lemma multicast_run trig k src F infc i f ex l : forall n q s s' e, Inv s -> pit_at (fw_t s) k = Some e -> NoDup (nh_face <$> l) -> (forall h, h ∈ l -> face_exists s (nh_face h)) ->
    F = fw_faces s -> F !! f = Some infc -> (forall j, trig = Some j -> (0 <= i_lifetime j)%Z) -> src_interest trig e src = Some i ->
    run trig k (access_multicast F infc src i f ex l n q) s = Some (s', tt) ->
    exists e1 tx s1, did k e e1 tx s s1 /\ run trig k (q (n + length tx)%nat) s1 = Some (s', tt) /\
      sent_to_all s (without_token i) l (fun g => may_pass s f (i_name i) g /\ g <> ex) tx /\ pe_info e1 = pe_info e /\
      (forall g, find_in g (pe_in e1) = find_in g (pe_in e)) /\ pe_interest e1 = pe_interest e.
  Proof.
    induction l as [|h l IH]; intros n q s s' e I He Hnd Hex HF Hf Hl Hi H; simpl in H.
    - exists e, [], s. split; [by apply did_refl|]. simpl. rewrite Nat.add_0_r. split; [done|]. split; [|done]. split; [constructor|]. intros x. split; [intros Hx; by apply elem_of_nil in Hx|]. intros (h & Hh & _). by apply elem_of_nil in Hh.
    - rewrite fmap_cons in Hnd. apply NoDup_cons in Hnd as [Hni Hnd].
      assert (Hs := skips_spec s infc i f ex h ltac:(by rewrite <- HF) ltac:(apply Hex; left)). rewrite <- HF in Hs. destruct (skips F infc i f ex h).
      + apply IH with (e := e) in H as (e1 & tx & s1 & D & H & [Hn Hx] & Hk); try done; [|intros h' Hh'; apply Hex; by right]. exists e1, tx, s1. split; [done|]. split; [done|]. split; [|done]. split; [done|].
        intros x. rewrite Hx. split; intros (h' & Hh' & Hr).
        * exists h'. split; [by right|done].
        * apply elem_of_cons in Hh' as [->|Hh']; [|by exists h']. destruct Hr as (_ & Hr & _). apply Hs in Hr. done.
      + destruct Hs as [Hs _]. specialize (Hs eq_refl). apply (run_send _ _ _ i _ _ _ _ e) in H as (e1 & tx & s1 & b & D & H & _ & Hc); [|done..].
        assert (Hk1 : pe_info e1 = pe_info e /\ (forall g, find_in g (pe_in e1) = find_in g (pe_in e)) /\ pe_interest e1 = pe_interest e) by (destruct Hc as [(_ & _ & -> & _)|(_ & _ & -> & _)]; done).
        destruct Hk1 as (K1 & K2 & K3). pose proof (dd_core _ _ _ _ _ _ D) as C.
        apply IH with (e := e1) in H as (e2 & tx2 & s2 & D2 & H & [Hn Hx] & K4 & K5 & K6); [|apply D|by apply (did_after _ _ _ _ _ _ D)|done|..].
        2: { intros h' Hh'. unfold face_exists. rewrite (sc_faces _ _ C). apply Hex. by right. }
        2: { by rewrite (sc_faces _ _ C). }
        2: done.
        2: done.
        2: { by rewrite (src_kept trig e e1). }
        assert (Hx' : forall x, x ∈ tx2 <-> exists h, h ∈ l /\ x = Tx_interest (nh_face h) (without_token i) /\ (may_pass s f (i_name i) (nh_face h) /\ nh_face h <> ex) /\ leaves s (without_token i) (nh_face h)).
        { intros x. rewrite Hx. unfold may_pass, leaves, local_face. by rewrite (sc_faces _ _ C). }
        exists e2, (tx2 ++ tx), s2. split; [by eapply did_trans|]. split; [|split; [|split; [congruence|split; [intros g; by rewrite K5|congruence]]]].
        * destruct Hc as [(-> & _ & _ & ->)|(-> & _ & _ & ->)]; rewrite app_length; simpl; [|by rewrite Nat.add_0_r]. by replace (n + (length tx2 + 1))%nat with (S n + length tx2)%nat by lia.
        * assert (Hnot : Tx_interest (nh_face h) (without_token i) ∉ tx2).
          { intros (h' & Hh' & [= E] & _)%Hx'. apply Hni. rewrite E. by apply elem_of_list_fmap_1. }
          split.
          -- apply NoDup_app. split; [done|]. destruct Hc as [(_ & _ & _ & ->)|(_ & _ & _ & ->)]; [|split; [|constructor]; intros ? _ Hz; by apply elem_of_nil in Hz].
             split; [|apply NoDup_singleton]. intros x Hx1 ->%elem_of_list_singleton. done.
          -- intros x. rewrite elem_of_app, Hx'. split.
             ++ intros [(h' & Hh' & Hr)|Hin]; [exists h'; split; [by right|done]|]. destruct Hc as [(_ & Hlv & _ & ->)|(_ & _ & _ & ->)]; [|by apply elem_of_nil in Hin].
                apply elem_of_list_singleton in Hin as ->. exists h. split; [left|]. done.
             ++ intros (h' & Hh' & -> & Hr & Hlv). apply elem_of_cons in Hh' as [->|Hh']; [|left; by exists h']. right.
                destruct Hc as [(_ & _ & _ & ->)|(_ & Hno & _)]; [|done]. by apply elem_of_list_singleton.
  Qed.
End run.
