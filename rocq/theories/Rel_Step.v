(** Link reliability: every step keeps the invariant. *)
From stdpp Require Import gmap.
From Verif Require Import Lib Lp_Model Rel_Model Rel_Spec Rel_Win Rel_Inv Tab_Pit.

Local Open Scope N_scope.

Section step.
  Variables (max_retx : N) (idle_period : Z) (thr : N) (rto : list Z -> Z).
  Definition busy (n : gmap nat netpkt) : Prop := forall id np, n !! id = Some np -> np_frags np <> [].
  Definition inv (s : rel) : Prop := winr s /\ invl max_retx (r_unacked s) (r_nets s) (r_next s) (r_log s) /\ busy (r_nets s).

  Notation on_lost := (on_lost max_retx rto false).
  Notation lose_each := (lose_each max_retx rto false).
  Notation on_ack := (on_ack max_retx thr rto false).
  Notation on_acks := (on_acks max_retx thr rto false).
  Notation process_incoming := (process_incoming max_retx idle_period thr rto false).
  Notation rel_step := (rel_step max_retx idle_period thr rto false).

  (** ** sending *)
  Lemma bare_txseq p x : lp_txseq p = Some x -> lp_bare p = false.
  Proof.
    intros H. unfold lp_bare, hdr_size. rewrite H. assert (E : fix_size T_TXSEQ (Some x) = 12) by done. rewrite E. apply andb_false_iff; left. apply N.eqb_neq. lia.
  Qed.
  Lemma send_lp_ok p s :
    lp_bare p = false -> exists p' acks, send_lp p s = Some (log (OSend p') (set_rel_acks acks s)) /\
      set_acks [] p' = set_acks [] p /\ exists x, r_acks s = x ++ acks.
  Proof.
    intros Hb. unfold send_lp. destruct (r_enabled s).
    - unfold piggyback. rewrite Hb. destruct (take_acks _ _) as [x y] eqn:E. eexists _, y. split; [reflexivity|]. split; [by destruct p|].
      exists x. revert x y E. generalize (((if (r_mtu s =? MTU_UNLIMITED)%Z then MAX_NDN_PACKET_SIZE else r_mtu s) - (Z.of_N (var_size 8800) - Z.of_N (var_size (wire_size p))) - Z.of_N (wire_size p))%Z).
      induction (r_acks s) as [|a l IH]; cbn; intros z x y; [intros [= <- <-]; done|].
      destruct (z <? ACK_SIZE)%Z; [intros [= <- <-]; done|]. destruct (take_acks _ l) as [x' y'] eqn:E'. intros [= <- <-]. cbn. f_equal. eauto.
    - exists p, (r_acks s). split; [by destruct s|]. split; [done|]. by exists [].
  Qed.
  Lemma inv_send p acks s : inv s -> inv (log (OSend p) (set_rel_acks acks s)).
  Proof. intros (Hw & Hi & Hb). split; [exact Hw|]. split; [apply inv_neutral; [done|exact Hi]|exact Hb]. Qed.

  (** ** what a step on the fragments leaves alone *)
  Definition side (s : rel) := (r_now s, r_mtu s, r_enabled s, r_recent s, r_queue s, r_idle s, r_next s, r_rx s).

  (** ** a loss *)
  Lemma lost_ok tx u s :
    inv s -> r_unacked s !! tx = Some u ->
    (on_lost tx s = None /\ span s = SEQ) \/
    (exists s' r, on_lost tx s = Some (s', r) /\ inv s' /\ span s' <= span s + 1 /\ (size (r_unacked s') <= size (r_unacked s))%nat /\ tx ∈ r /\
       (forall k v, r_unacked s !! k = Some v -> k ∉ r -> r_unacked s' !! k = Some v) /\ side s' = side s /\ r_rtt s' = r_rtt s).
  Proof.
    intros (Hw & Hi & Hb) Hu. pose proof Hi as []. unfold Rel_Model.on_lost. rewrite Hu.
    destruct (i_un tx u Hu) as (np & Hn & Hin). rewrite Hn. destruct (i_frag tx u Hu) as (seq & Hs & Ht & Htm & Hr & Hc). rewrite Hs.
    destruct (i_net _ _ Hn) as (Hid & Hnd & Hall).
    destruct (N.leb_spec max_retx (ua_retx u)) as [Hmax|Hmax].
    - right. set (others := List.filter (fun k => negb (k =? tx)) (np_frags np)).
      assert (Ho : forall x, x ∈ others <-> x ∈ np_frags np /\ x <> tx).
      { intros x. unfold others. rewrite elem_of_list_In, filter_In, <- elem_of_list_In, negb_true_iff, N.eqb_neq. done. }
      destruct (delete_each_ok others s) as (s1 & E1 & F1 & W1 & S1 & U1); [done|apply NoDup_ListNoDup, List.NoDup_filter, NoDup_ListNoDup; done| |].
      { intros x [Hx _]%Ho. destruct (Hall x Hx) as (v & Hv & _). eauto. }
      rewrite E1.
      set (s3 := if np_interest np then _ else _).
      assert (K3 : r_unacked s3 = r_unacked s1 /\ r_first s3 = r_first s1 /\ r_last s3 = r_last s1 /\ r_nets s3 = r_nets s /\ r_next s3 = r_next s /\ side s3 = side s /\ r_rtt s3 = r_rtt s /\
        (r_log s3 = OFate (ua_net u) Exhausted :: r_log s \/ exists p, r_log s3 = ODropped p :: OFate (ua_net u) Exhausted :: r_log s)).
      { unfold s3. rewrite F1. destruct (np_interest np); cbn; repeat split; eauto. }
      clearbody s3. destruct K3 as (K1 & K2 & K3 & K4 & K5 & K6 & K7 & K8).
      assert (W3 : winr s3) by (unfold winr; rewrite K1, K2, K3; done).
      destruct (delete_ok tx s3 W3) as (s4 & E4 & F4 & U4 & W4 & S4).
      { rewrite K1, U1. rewrite decide_False; [eauto|]. intros [_ ?]%Ho. done. }
      rewrite E4. eexists _, _. split; [reflexivity|].
      assert (HM : forall x, r_unacked s4 !! x = if decide (x ∈ np_frags np) then None else r_unacked s !! x).
      { intros x. rewrite U4, K1. destruct (decide (x = tx)) as [->|Hne].
        - rewrite lookup_delete, decide_True by done. done.
        - rewrite lookup_delete_ne, U1 by done. destruct (decide (x ∈ others)) as [Hx|Hx].
          + rewrite decide_True; [done|]. by apply Ho in Hx as [].
          + rewrite decide_False; [done|]. intros ?. apply Hx. by apply Ho. }
      assert (L4 : r_log s4 = r_log s3) by (rewrite F4; done). assert (N4 : r_nets s4 = r_nets s) by (rewrite F4; exact K4). assert (X4 : r_next s4 = r_next s) by (rewrite F4; exact K5).
      assert (Hr' : retransmissions (ua_net u) seq (r_log s) = max_retx) by (pose proof (i_max (ua_net u) seq); lia).
      assert (Hex : exists tx b, OTx (ua_net u) seq tx b ∈ r_log s) by (apply current_elem in Hc as [b Hb']; eauto).
      split; [split; [|split]|].
      + exact W4.
      + cbn. rewrite N4, X4, L4. pose proof (inv_exhaust max_retx _ _ _ _ (ua_net u) np (r_unacked s4) seq Hi Hn HM Hr' Hex) as HI.
        destruct K8 as [->|[p ->]]; [exact HI|apply inv_neutral; [done|exact HI]].
      + cbn. rewrite N4. intros id' np' [_ H']%lookup_delete_Some. eauto.
      + split; [unfold span in *; cbn; rewrite K2, K3 in S4; lia|]. split; [|split; [apply elem_of_app; right; left|split; [|split]]].
        * rewrite <- !(size_dom (D := gset N)). apply subseteq_size, subseteq_dom, map_subseteq_spec. intros k v. cbn. rewrite HM. by destruct (decide _).
        * intros k v Hk Hkr. cbn. rewrite HM. rewrite decide_False; [done|]. intros Hx. apply Hkr. apply elem_of_app. destruct (decide (k = tx)) as [->|]; [right; left|left; by apply Ho].
        * rewrite F4. unfold side in *. cbn. done.
        * rewrite F4. cbn. done.
    - destruct (assign_ok s Hw) as [[-> Hsp]|(new & -> & Hnew & Hnn & HW)]; [left; done|right]. cbn [r_unacked set_last]. rewrite Hnn.
      destruct (list_find (fun k => k = tx) (np_frags np)) as [[i y]|] eqn:El.
      2:{ apply list_find_None in El. rewrite Forall_forall in El. by destruct (El tx Hin). }
      apply list_find_Some in El as (El & -> & _).
      set (nu := Unacked _ _ _ _ _ _). set (s3 := set_nets _ _).
      assert (Hne : r_unacked s <> ∅) by (intros E; rewrite E, lookup_empty in Hu; done).
      assert (W3 : winr s3).
      { unfold winr, s3. cbn. apply HW; [done|done]. }
      assert (S3 : span s3 <= span s + 1).
      { unfold s3, span at 1. cbn. apply (HW nu); done. }
      destruct (delete_ok tx s3 W3) as (s4 & E4 & F4 & U4 & W4 & S4).
      { cbn. rewrite lookup_insert_ne by congruence. eauto. }
      rewrite E4.
      destruct (send_lp_ok (set_txseq (Some new) (ua_pkt u)) (log (OTx (ua_net u) seq new true) s4)) as (p' & acks & E5 & _ & _).
      { by apply bare_txseq with new. }
      rewrite E5. eexists _, _. split; [reflexivity|].
      assert (Hsz : size (r_unacked s4) = size (r_unacked s)).
      { rewrite U4. cbn. rewrite map_size_delete_Some by (exists u; rewrite lookup_insert_ne; [done|congruence]). rewrite map_size_insert_None by done. done. }
      split; [apply inv_send; split; [exact W4|split]|].
      + cbn. rewrite U4, F4. cbn. apply inv_retx; done.
      + cbn. rewrite F4. cbn. intros id' np' [[<- <-]|[_ H']]%lookup_insert_Some; [|eauto]. cbn. intros E%(f_equal length). rewrite insert_length in E. by apply (Hb _ _ Hn), nil_length_inv.
      + split; [unfold span in *; cbn; lia|]. split; [cbn; lia|]. split; [left|]. split; [|rewrite F4; done].
        intros k v Hk Hkr. cbn. rewrite U4, lookup_delete_ne by (intros ->; apply Hkr; left). cbn. rewrite lookup_insert_ne by congruence. done.
  Qed.

  (** ** an acknowledgement *)
  Lemma bump_lookup l m x :
    match m !! x, foldr bump m l !! x with
    | Some u, Some v => ua_pkt v = ua_pkt u /\ ua_timer v = ua_timer u /\ ua_retx v = ua_retx u /\ ua_net v = ua_net u
    | None, None => True | _, _ => False end.
  Proof.
    induction l as [|a l IH]; cbn.
    - destruct (m !! x); done.
    - assert (E : a <> x -> bump a (foldr bump m l) !! x = foldr bump m l !! x) by (intros; unfold bump at 1; by rewrite lookup_alter_ne).
      destruct (decide (a = x)) as [->|Hne]; [|rewrite E by done; exact IH].
      replace (bump x (foldr bump m l) !! x) with ((fun u => Unacked (ua_pkt u) (ua_timer u) (ua_sent u) (ua_retx u) (ua_greater u + 1) (ua_net u)) <$> foldr bump m l !! x) by (symmetry; apply lookup_alter).
      destruct (m !! x), (foldr bump m l !! x); done.
  Qed.
  Lemma until_incl k l x : x ∈ until k l -> x ∈ l /\ x <> k.
  Proof.
    induction l as [|a l IH]; cbn; [by intros ?%elem_of_nil|]. destruct (N.eqb_spec a k) as [->|Hne]; [by intros ?%elem_of_nil|].
    intros [->|Hx]%elem_of_cons; [split; [left|done]|]. split; [right|]; by apply IH.
  Qed.
  Lemma until_nodup k l : NoDup l -> NoDup (until k l).
  Proof.
    induction 1 as [|a l Ha Hn IH]; cbn; [constructor|]. destruct (N.eqb_spec a k); [constructor|]. constructor; [|done]. by intros [? _]%until_incl.
  Qed.
  Lemma win_dom m m' f la : (forall x, is_Some (m !! x) <-> is_Some (m' !! x)) -> win m f la -> win m' f la.
  Proof.
    intros H (H1 & H2 & H3). split; [done|]. split; [intros k Hk; apply H2, H, Hk|]. destruct f as [f|].
    - destruct H3 as [H3 H4]. split; [by apply H|]. intros k Hk. apply H4, H, Hk.
    - apply map_empty. intros i. destruct (m' !! i) eqn:E; [|done]. assert (Hs : is_Some (m' !! i)) by eauto. apply H in Hs as [? Hs]. rewrite H3, lookup_empty in Hs. done.
  Qed.
  Lemma size_keys (m m' : gmap N unacked) : (forall x, is_Some (m !! x) <-> is_Some (m' !! x)) -> size m = size m'.
  Proof.
    intros H. rewrite <- !(size_dom (D := gset N)). f_equal. apply set_eq. intros x. rewrite !elem_of_dom. apply H.
  Qed.
  Lemma find_lost_ok ack u s :
    inv s -> r_unacked s !! ack = Some u ->
    exists s' lost, find_lost thr ack s = Some (s', lost) /\ inv s' /\ span s' = span s /\ size (r_unacked s') = size (r_unacked s) /\ NoDup lost /\ ack ∉ lost /\
      (forall x, x ∈ lost -> is_Some (r_unacked s' !! x)) /\ is_Some (r_unacked s' !! ack) /\ side s' = side s /\ r_rtt s' = r_rtt s /\ r_log s' = r_log s.
  Proof.
    intros (Hw & Hi & Hb) Hu. unfold find_lost. pose proof Hw as (_ & _ & Hf). destruct (r_first s) as [f|] eqn:Ef; [|rewrite Hf, lookup_empty in Hu; done].
    set (before := until ack (keys_from f (r_unacked s))). set (m := foldr bump (r_unacked s) before).
    assert (HD : forall x, is_Some (r_unacked s !! x) <-> is_Some (m !! x)).
    { intros x. pose proof (bump_lookup before (r_unacked s) x) as H. fold m in H. destruct (r_unacked s !! x), (m !! x); done. }
    eexists _, _. split; [reflexivity|]. split; [split; [|split]|].
    - unfold winr in *. cbn. rewrite Ef in *. eapply win_dom; eauto.
    - cbn. eapply inv_bump; [exact Hi|]. intros x. apply bump_lookup.
    - exact Hb.
    - split; [unfold span; cbn; done|]. split; [cbn; symmetry; by apply size_keys|].
      split; [apply NoDup_ListNoDup, List.NoDup_filter, NoDup_ListNoDup, until_nodup, keys_from_nodup|].
      split; [|split; [|split; [|done]]].
      + rewrite elem_of_list_In, filter_In, <- elem_of_list_In. intros [[_ ?]%until_incl _]. done.
      + intros x. rewrite elem_of_list_In, filter_In, <- elem_of_list_In. intros [[Hx _]%until_incl _]. cbn. apply HD. by apply keys_from_elem in Hx.
      + cbn. apply HD. eauto.
  Qed.
  Lemma acked_ok tx l s :
    winr s -> busy (r_nets s) -> invl max_retx (r_unacked s) (r_nets s) (r_next s) l -> r_log s = OAck tx :: l -> is_Some (r_unacked s !! tx) ->
    exists s', on_acked tx s = Some s' /\ inv s' /\ span s' <= span s /\
      r_unacked s' = delete tx (r_unacked s) /\ side s' = side s /\ r_rtt s' = r_rtt s.
  Proof.
    intros Hw Hb Hi El' [u Hu]. pose proof Hi as []. unfold on_acked. rewrite Hu.
    destruct (i_un tx u Hu) as (np & Hn & Hin). rewrite Hn.
    destruct (list_find (fun k => k = tx) (np_frags np)) as [[i y]|] eqn:El.
    2:{ apply list_find_None in El. rewrite Forall_forall in El. by destruct (El tx Hin). }
    apply list_find_Some in El as (El & -> & _).
    destruct (last (np_frags np)) as [b|] eqn:Eb; [|apply last_None in Eb; rewrite Eb in Hin; by apply elem_of_nil in Hin].
    pose proof (swap_remove (np_frags np) i tx b El Eb) as Hp. set (fr := removelast _) in *. clearbody fr.
    set (s1 := match fr with [] => _ | _ => _ end).
    assert (K1 : r_unacked s1 = r_unacked s /\ r_first s1 = r_first s /\ r_last s1 = r_last s /\ side s1 = side s /\ r_rtt s1 = r_rtt s) by (unfold s1; destruct fr; done).
    destruct K1 as (K1 & K2 & K3 & K4 & K5).
    assert (W1 : winr s1) by (unfold winr; rewrite K1, K2, K3; done).
    destruct (delete_ok tx s1 W1) as (s' & E' & F' & U' & W' & S'); [rewrite K1; eauto|].
    exists s'. split; [done|]. assert (HB : busy (r_nets s')).
    { rewrite F'. unfold s1. cbn. intros id' np'. destruct fr as [|z fr]; cbn.
      - intros [_ ?]%lookup_delete_Some. eauto.
      - intros [[<- <-]|[_ ?]]%lookup_insert_Some; [done|eauto]. }
    split; [|split; [unfold span in *; rewrite K2, K3 in S'; lia|]; split; [by rewrite U', K1|]; rewrite F'; done].
    split; [done|]. split; [|done].
    pose proof (inv_ack_some max_retx _ _ _ _ tx u np fr Hi Hu Hn Hp) as HI. rewrite U', K1, F'. cbn. unfold s1.
    assert (Hex : exists seq x b, OTx (ua_net u) seq x b ∈ OAck tx :: l).
    { destruct (i_frag tx u Hu) as (q & _ & _ & _ & _ & (c & Hc)%current_elem). exists q, tx, c. by right. }
    destruct fr as [|z fr]; cbn; rewrite El'.
    - eapply inv_finish in HI; [|apply lookup_insert|done|exact Hex|reflexivity]. cbn in HI. rewrite delete_insert_delete in HI. exact HI.
    - exact HI.
  Qed.

  Lemma lose_each_ok l : forall removed s,
    inv s -> NoDup l -> (forall x, x ∈ l -> x ∈ removed \/ is_Some (r_unacked s !! x)) ->
    (lose_each l removed s = None /\ SEQ < span s + N.of_nat (length l)) \/
    exists s', lose_each l removed s = Some s' /\ inv s' /\ span s' <= span s + N.of_nat (length l) /\ (size (r_unacked s') <= size (r_unacked s))%nat /\
      side s' = side s /\ r_rtt s' = r_rtt s.
  Proof.
    induction l as [|x l IH]; intros removed s HI Hn Hl; cbn [Rel_Model.lose_each length].
    - right. exists s. split; [done|]. split; [done|]. split; [lia|]. split; [lia|done].
    - apply NoDup_cons in Hn as [Hx Hn]. destruct (decide (x ∈ removed)) as [Hr|Hr].
      + destruct (IH removed s) as [[? ?]|(s' & ? & ? & ? & ? & ?)]; [done|done| |left; split; [done|lia]|right].
        { intros y Hy. apply Hl. by right. }
        exists s'. split; [done|]. split; [done|]. split; [lia|done].
      + destruct (Hl x) as [?|[u Hu]]; [left|done|]. destruct (lost_ok x u s HI Hu) as [[E ?]|(s1 & r & E & I1 & S1 & Z1 & R1 & M1 & D1 & T1)]; rewrite E; [left; split; [done|lia]|].
        destruct (IH (removed ++ r) s1) as [[? ?]|(s' & E' & I' & S' & Z' & D' & T')]; [done|done| |left; split; [done|lia]|right].
        { intros y Hy. destruct (Hl y) as [?|[v Hv]]; [by right|left; apply elem_of_app; by left|]. destruct (decide (y ∈ r)); [left; apply elem_of_app; by right|].
          right. exists v. by apply M1. }
        exists s'. split; [done|]. split; [done|]. split; [lia|]. split; [lia|]. split; congruence.
  Qed.
  Lemma find_lost_len (s s' : rel) lost : (forall x, x ∈ lost -> is_Some (r_unacked s !! x)) -> NoDup lost -> (length lost <= size (r_unacked s))%nat.
  Proof.
    intros H Hn. rewrite <- (size_dom (D := gset N)). rewrite <- (size_list_to_set (C := gset N) lost) by done. apply subseteq_size. intros x Hx%elem_of_list_to_set.
    apply elem_of_dom. auto.
  Qed.
  Lemma ack_ok a s :
    inv s -> (on_ack a s = None /\ SEQ < span s + N.of_nat (size (r_unacked s))) \/
    exists s', on_ack a s = Some s' /\ inv s' /\ span s' <= span s + N.of_nat (size (r_unacked s)) /\ (size (r_unacked s') <= size (r_unacked s))%nat /\ side s' = side s.
  Proof.
    intros HI. unfold Rel_Model.on_ack. destruct (r_unacked s !! a) as [u|] eqn:Hu.
    2:{ right. exists s. split; [done|]. split; [done|]. split; [lia|]. split; [lia|done]. }
    set (s1 := if ua_retx u =? 0 then _ else s).
    assert (K : inv s1 /\ span s1 = span s /\ r_unacked s1 = r_unacked s /\ side s1 = side s) by (unfold s1; destruct (ua_retx u =? 0); done).
    clearbody s1. destruct K as (I1 & S1 & U1 & D1).
    assert (I2 : inv (log (OAck a) s1)).
    { destruct I1 as (A & B & C). split; [exact A|]. split; [apply inv_neutral; [done|exact B]|exact C]. }
    destruct (find_lost_ok a u (log (OAck a) s1) I2) as (s2 & lost & E2 & J2 & S2 & Z2 & N2 & A2 & L2 & Ha & D2 & T2 & G2); [cbn; by rewrite U1|].
    rewrite E2. cbn in G2.
    assert (Hinv : invl max_retx (r_unacked s2) (r_nets s2) (r_next s2) (r_log s1)).
    { unfold find_lost in E2. cbn in E2. destruct (r_first s1); [|done]. injection E2 as <- _. cbn. eapply inv_bump; [apply I1|]. intros x. apply bump_lookup. }
    destruct (acked_ok a (r_log s1) s2) as (s3 & E3 & I3 & S3 & U3 & D3 & T3); [apply J2|apply J2|done|done|done|].
    rewrite E3.
    assert (Hlen : (length lost <= size (r_unacked s3))%nat).
    { apply find_lost_len; [done| |done]. intros x Hx. rewrite U3, lookup_delete_ne; [auto|]. intros ->. done. }
    assert (Hsz : (size (r_unacked s3) <= size (r_unacked s))%nat).
    { rewrite U3. rewrite map_size_delete_Some by done. rewrite Z2. cbn. rewrite U1. lia. }
    assert (S4 : span s2 = span s) by (rewrite S2, <- S1; done).
    destruct (lose_each_ok lost [] s3) as [[E4 Hx]|(s4 & E4 & I4 & S5 & Z4 & D4 & T4)]; [done|done| |left; split; [done|lia]|right].
    { intros x Hx. right. rewrite U3, lookup_delete_ne; [auto|]. intros ->. done. }
    exists s4. split; [done|]. split; [done|]. split; [lia|]. split; [lia|]. transitivity (side s3); [done|]. transitivity (side s2); [done|]. rewrite D2. exact D1.
  Qed.
  Lemma acks_ok l : forall s,
    inv s -> (on_acks l s = None /\ SEQ < span s + N.of_nat (length l * size (r_unacked s))) \/
    exists s', on_acks l s = Some s' /\ inv s' /\ span s' <= span s + N.of_nat (length l * size (r_unacked s)) /\ side s' = side s.
  Proof.
    induction l as [|a l IH]; intros s HI; cbn [Rel_Model.on_acks length Nat.mul].
    - right. exists s. split; [done|]. split; [done|]. split; [lia|done].
    - destruct (ack_ok a s HI) as [[E1 ?]|(s1 & E1 & I1 & S1 & Z1 & D1)]; rewrite E1; [left; split; [done|lia]|].
      assert (Hm : (length l * size (r_unacked s1) <= length l * size (r_unacked s))%nat) by nia.
      destruct (IH s1 I1) as [[E2 ?]|(s2 & E2 & I2 & S2 & D2)]; [left; split; [done|lia]|right]. exists s2. split; [done|]. split; [done|]. split; [lia|congruence].
  Qed.

  (** ** network packets *)
  Lemma out_frag_ok id np frag seq s :
    winr s -> invl max_retx (r_unacked s) (r_nets s) (r_next s) (r_log s) -> r_nets s !! id = Some np -> np_retx np = false ->
    lp_seq frag = Some seq -> (forall tx' u', r_unacked s !! tx' = Some u' -> ua_net u' = id -> lp_seq (ua_pkt u') <> Some seq) ->
    (span s = SEQ /\ out_frag rto id frag s = None) \/
    exists s' tx np', out_frag rto id frag s = Some (s', set_txseq (Some tx) frag) /\ winr s' /\ invl max_retx (r_unacked s') (r_nets s') (r_next s') (r_log s') /\
      r_nets s' = <[id := np']> (r_nets s) /\ np_frags np' = np_frags np ++ [tx] /\ np_retx np' = false /\ span s' <= span s + 1 /\ side s' = side s /\
      r_log s' = OTx id seq tx false :: r_log s /\
      exists u, r_unacked s' = <[tx := u]> (r_unacked s) /\ ua_net u = id /\ lp_seq (ua_pkt u) = Some seq /\ r_unacked s !! tx = None /\
        u = Unacked (set_txseq (Some tx) frag) (Some (r_now s + rto (r_rtt s))%Z) (r_now s) 0 0 id /\ r_rtt s' = r_rtt s.
  Proof.
    intros Hw Hi Hn Hr Hs Hu. unfold out_frag. rewrite Hs.
    destruct (assign_ok s Hw) as [[-> H]|(tx & -> & Htx & Hnn & HW)]; [by left|right]. cbn [r_unacked set_last]. rewrite Hnn.
    set (u := Unacked _ _ _ _ _ _). set (s3 := if decide _ then _ else _).
    assert (Krtt : r_rtt s3 = r_rtt s) by (unfold s3; destruct (decide _); done).
    assert (K : r_nets s3 = r_nets s /\ r_next s3 = r_next s /\ r_log s3 = r_log s /\ side s3 = side s /\ r_unacked s3 = <[tx := u]> (r_unacked s) /\ r_last s3 = tx /\
      (r_unacked s = ∅ -> r_first s3 = Some tx) /\ (r_unacked s <> ∅ -> r_first s3 = r_first s)).
    { unfold s3. assert (Z : size (<[tx := u]> (r_unacked s)) = S (size (r_unacked s))) by (by apply map_size_insert_None).
      destruct (decide _) as [E|E]; cbn; (do 6 (split; [done|])); (split; [|]); intros Ee; try done.
      - rewrite Z in E. exfalso. apply Ee. apply map_size_empty_iff. lia.
      - exfalso. apply E. rewrite Z, Ee. done. }
    clearbody s3. destruct K as (K1 & K2 & K3 & K4 & K5 & K6 & K7 & K8). rewrite K1, Hn.
    destruct (HW u (r_first s3) K7 K8) as [W1 W2].
    eexists _, tx, _. split; [reflexivity|]. split; [unfold winr; cbn; rewrite K5, K6; exact W1|]. split.
    { cbn. rewrite K5, K3, K2. unfold u. eapply inv_out; try done; by destruct frag. }
    split; [reflexivity|]. split; [done|]. split; [done|]. split; [unfold span at 1; cbn; rewrite K6; exact W2|]. split; [exact K4|]. split; [cbn; by rewrite K3|].
    exists u. split; [exact K5|]. split; [done|]. split; [unfold u; by destruct frag|]. split; [done|]. split; [done|]. cbn. done.
  Qed.
  Lemma out_frags_ok id frags : forall np s,
    winr s -> invl max_retx (r_unacked s) (r_nets s) (r_next s) (r_log s) -> r_nets s !! id = Some np -> np_retx np = false ->
    (forall id' np', id' <> id -> r_nets s !! id' = Some np' -> np_frags np' <> []) -> frags <> [] \/ np_frags np <> [] ->
    (forall p, p ∈ frags -> is_Some (lp_seq p)) -> NoDup (map lp_seq frags) ->
    (forall tx' u' p, r_unacked s !! tx' = Some u' -> ua_net u' = id -> p ∈ frags -> lp_seq (ua_pkt u') <> lp_seq p) ->
    (out_frags rto id frags s = None /\ SEQ < span s + N.of_nat (length frags)) \/
    exists s' l, out_frags rto id frags s = Some (s', l) /\ inv s' /\ span s' <= span s + N.of_nat (length frags) /\ side s' = side s /\
      Forall2 (fun p q => exists tx, q = set_txseq (Some tx) p) frags l /\
      exists txs, length txs = length frags /\ NoDup txs /\ (forall tx, tx ∈ txs -> r_unacked s !! tx = None) /\ l = tagged frags txs /\
        r_log s' = first_logged id frags txs ++ r_log s /\
        r_unacked s' = first_sent (r_now s) (rto (r_rtt s)) id frags txs ∪ r_unacked s.
  Proof.
    induction frags as [|p frags IH]; intros np s Hw Hi Hn Hr Hb Hne Hq Hd Hu; cbn [out_frags length rev].
    - right. exists s, []. split; [done|]. split; [|split; [cbn; lia|]; split; [done|]; split; [by apply List.Forall2_nil|]; exists []; split; [done|]; split; [apply NoDup_nil_2|]; split; [by intros ? ?%elem_of_nil|]; split; [done|]; split; [done|]; unfold first_sent; cbn; by rewrite (left_id_L ∅ (∪))].
      split; [done|]. split; [done|]. intros id' np' Hn'. destruct (decide (id' = id)) as [->|]; [|eauto]. destruct Hne as [?|?]; [done|]. congruence.
    - destruct (Hq p) as [seq Hseq]; [left|]. cbn in Hd. apply NoDup_cons in Hd as [Hd1 Hd2].
      destruct (out_frag_ok id np p seq s) as [[? E1]|(s1 & tx & np1 & E1 & W1 & I1 & N1 & F1 & R1 & S1 & D1 & L1 & u & U1 & Hu1 & Hu2 & Hf1 & Hu3 & T1)]; try done.
      { intros tx' u' H1 H2. rewrite <- Hseq. eapply Hu; eauto. left. }
      { rewrite E1. left. split; [done|lia]. }
      rewrite E1. destruct (IH np1 s1) as [[E2 ?]|(s2 & l & E2 & I2 & S2 & D2 & F2 & txs & Z2 & ND & Hfr & -> & L2 & O2)]; try done.
      + rewrite N1. apply lookup_insert.
      + intros id' np' Hid. rewrite N1, lookup_insert_ne by done. eauto.
      + right. rewrite F1. by destruct (np_frags np).
      + intros p' Hp'. apply Hq. by right.
      + intros tx' u' p'. rewrite U1. intros [[<- <-]|[_ Hu']]%lookup_insert_Some Hi' Hp'; [|eapply Hu; eauto; by right].
        rewrite Hu2, <- Hseq. intros E. apply Hd1. rewrite E. by apply (elem_of_list_fmap_1 lp_seq).
      + rewrite E2. left. split; [done|lia].
      + rewrite E2. right. exists s2, (set_txseq (Some tx) p :: tagged frags txs). split; [done|]. split; [done|]. split; [lia|]. split; [congruence|]. split; [constructor; eauto|].
        assert (Hnx : tx ∉ txs) by (intros Hx; apply Hfr in Hx; rewrite U1, lookup_insert in Hx; done).
        exists (tx :: txs). split; [cbn; by rewrite Z2|]. split; [by constructor|]. split.
        { intros t0 [->|Ht0]%elem_of_cons; [done|]. specialize (Hfr _ Ht0). rewrite U1 in Hfr. apply lookup_insert_None in Hfr as [? _]. done. }
        split; [done|]. split; [rewrite L2, L1; unfold first_logged; cbn; rewrite Hseq; cbn; by rewrite <- app_assoc|].
        rewrite O2, U1. unfold first_sent. cbn. unfold side in D1. injection D1 as En Em Ee Er Eq Ei Ex Eh. rewrite En, T1, <- Hu3.
        rewrite <- insert_union_l. symmetry. apply insert_union_r. apply not_elem_of_list_to_map. rewrite fst_zip; [done|]. rewrite fmap_length. unfold tagged. rewrite zip_with_length. lia.
  Qed.
  Lemma send_each_ok l : forall s,
    inv s -> (forall p, p ∈ l -> lp_bare p = false) ->
    exists s', send_each l s = Some s' /\ inv s' /\ span s' = span s /\ side s' = side s /\ r_unacked s' = r_unacked s.
  Proof.
    induction l as [|p l IH]; intros s HI Hb; cbn; [by exists s|].
    destruct (send_lp_ok p s) as (p' & acks & E & _ & _); [apply Hb; left|]. rewrite E.
    destruct (IH (log (OSend p') (set_rel_acks acks s))) as (s' & E' & I' & S' & D' & U'); [by apply inv_send|intros q Hq; apply Hb; by right|].
    exists s'. split; [done|]. split; [done|]. split; [rewrite S'; done|]. split; [rewrite D'; done|]. rewrite U'; done.
  Qed.

  Lemma send_each_log l : forall s s',
    inv s -> (forall p, p ∈ l -> lp_bare p = false) -> send_each l s = Some s' ->
    exists sends, r_log s' = rev (OSend <$> sends) ++ r_log s /\ set_acks [] <$> sends = set_acks [] <$> l /\ r_unacked s' = r_unacked s.
  Proof.
    induction l as [|p l IH]; intros s s' HI Hb H; cbn in H; [injection H as <-; by exists []|].
    destruct (send_lp_ok p s) as (p' & acks & E & Ea & _); [apply Hb; left|]. rewrite E in H.
    destruct (IH (log (OSend p') (set_rel_acks acks s)) s') as (sends & L & Q & U); [by apply inv_send|intros q Hq; apply Hb; by right|done|].
    exists (p' :: sends). split; [rewrite L; cbn; by rewrite <- app_assoc|]. split; [cbn; by rewrite Ea, Q|done].
  Qed.

  (** ** the idle timer *)
  Lemma idle_ok n : forall s, inv s -> r_enabled s = true -> min_mtu (r_mtu s) -> (length (r_acks s) <= n)%nat ->
    exists s', idle_loop n s = Some s' /\ inv s' /\ span s' = span s /\ side s' = side s /\ r_acks s' = [].
  Proof.
    induction n as [|n IH]; intros s HI He Hm Hl.
    - destruct (r_acks s) eqn:E; [|cbn in Hl; lia]. exists s. cbn. rewrite E. done.
    - cbn. destruct (r_acks s) as [|a acks] eqn:E; [by exists s|].
      unfold send_lp. rewrite He. unfold piggyback. assert (Hb : lp_bare lp_empty = false) by done. rewrite Hb. rewrite E. cbn [take_acks].
      assert (Hroom : exists z, (12 <= z)%Z /\ ((if (r_mtu s =? MTU_UNLIMITED)%Z then MAX_NDN_PACKET_SIZE else r_mtu s) - (Z.of_N (var_size 8800) - Z.of_N (var_size (wire_size lp_empty))) - Z.of_N (wire_size lp_empty) = z)%Z).
      { eexists. split; [|reflexivity]. change (Z.of_N (var_size 8800)) with 3%Z. change (Z.of_N (var_size (wire_size lp_empty))) with 1%Z. change (Z.of_N (wire_size lp_empty)) with 2%Z.
        unfold MAX_NDN_PACKET_SIZE. destruct Hm as [->|Hm]; [rewrite Z.eqb_refl; lia|]. destruct (Z.eqb_spec (r_mtu s) MTU_UNLIMITED); lia. }
      destruct Hroom as (z & Hz & ->). destruct (Z.ltb_spec z ACK_SIZE) as [Hlt|_]; [unfold ACK_SIZE in Hlt; lia|].
      destruct (take_acks (z - ACK_SIZE) acks) as [x y] eqn:Et.
      destruct (IH (log (OSend (set_acks (lp_acks lp_empty ++ a :: x) lp_empty)) (set_rel_acks y s))) as (s' & E' & I' & S' & D' & A').
      + by apply inv_send.
      + done.
      + done.
      + cbn. assert (Hy : forall acks z x y, take_acks z acks = (x, y) -> (length y <= length acks)%nat).
        { clear. induction acks as [|b acks IH]; cbn; intros z x y; [intros [= <- <-]; done|]. destruct (z <? ACK_SIZE)%Z; [intros [= <- <-]; cbn; lia|].
          destruct (take_acks _ acks) as [x' y'] eqn:E. intros [= <- <-]. apply IH in E. cbn; lia. }
        apply Hy in Et. cbn in Hl. lia.
      + exists s'. split; [done|]. split; [done|]. split; [rewrite S'; done|]. split; [rewrite D'; done|done].
  Qed.

  (** ** every event *)
  Definition env_ok (s : rel) : Prop := min_mtu (r_mtu s) /\ (r_enabled s = false -> r_idle s = None).
  Lemma handle_ok frags pkt i s :
    inv s -> rel_ok s (RlOut frags pkt i) ->
    (handle_outgoing rto frags pkt i s = None /\ SEQ < span s + N.of_nat (length frags)) \/
    exists s1 l, handle_outgoing rto frags pkt i s = Some (s1, l) /\ inv s1 /\ span s1 <= span s + N.of_nat (length frags) /\ (r_mtu s1 = r_mtu s /\ r_enabled s1 = r_enabled s) /\
      Forall2 (fun p q => exists tx, q = set_txseq (Some tx) p) frags l /\
      exists txs, length txs = length frags /\ NoDup txs /\ (forall tx, tx ∈ txs -> r_unacked s !! tx = None) /\ l = tagged frags txs /\
        r_log s1 = first_logged (r_next s) frags txs ++ r_log s /\
        r_unacked s1 = first_sent (r_now s) (rto (r_rtt s)) (r_next s) frags txs ∪ r_unacked s.
  Proof.
    intros HI Hok. destruct Hok as (He & Hne & Hq & Hd). unfold handle_outgoing. rewrite He.
    set (id := r_next s). set (s0 := set_next _ _). destruct HI as (Hw & Hi & Hb).
    assert (Hfree : r_nets s !! id = None).
    { destruct (r_nets s !! id) eqn:E; [|done]. destruct (i_net _ _ _ _ _ Hi id n E) as [? _]. unfold id in *. lia. }
    destruct (out_frags_ok id frags (NetPkt [] pkt i false) s0) as [[E1 ?]|(s1 & l & E1 & I1 & S1 & D1 & F1 & T1)]; try done.
    + cbn. destruct Hi. split; auto.
      * intros tx u Hu. destruct (i_un tx u Hu) as (np & Hn & Hin). exists np. rewrite lookup_insert_ne; [done|]. intros E. rewrite <- E in Hn. congruence.
      * intros id' np' [[<- <-]|[Hx Hn']]%lookup_insert_Some; [cbn; split; [unfold id; lia|]; split; [constructor|]; by intros ? ?%elem_of_nil|].
        destruct (i_net id' np' Hn') as (? & ? & ?). split; [lia|done].
      * intros id'. specialize (i_fate id'). destruct (decide (id' = id)) as [->|Hx].
        -- rewrite lookup_insert. rewrite Hfree in i_fate. rewrite (decide_True (P := is_Some (Some _))) by eauto.
           rewrite (decide_True (P := (id < S id)%nat)) by lia. rewrite (decide_False (P := (id < r_next s)%nat)) in i_fate by (unfold id; lia). lia.
        -- rewrite lookup_insert_ne by done. rewrite i_fate. destruct (decide (id' < r_next s)%nat), (decide (id' < S id)%nat); try done; unfold id in *; lia.
      * intros id' np' [[<- <-]|[Hx Hn']]%lookup_insert_Some; [cbn; split; [done|]; intros (q & t & Hx%i_old); unfold id in *; lia|eauto].
      * intros id' q t b Hx%i_old. lia.
      * intros id' np' q t b [[<- <-]|[Hx Hn']]%lookup_insert_Some; [intros Hx%i_old; unfold id in *; lia|eauto].
    + cbn. apply lookup_insert.
    + cbn. intros id' np' Hx. rewrite lookup_insert_ne by done. eauto.
    + by left.
    + intros tx' u' p Hu' Hx. cbn in Hu'. destruct (i_un _ _ _ _ _ Hi tx' u' Hu') as (np & Hn & _). congruence.
    + rewrite E1. left. split; [done|exact H].
    + rewrite E1. right. exists s1, l. cbn in *. split; [done|]. split; [done|]. split; [exact S1|]. split; [unfold side in D1; cbn in D1; injection D1 as _ Q1 Q2 _ _ _ _ _; split; [exact Q1|congruence]|]. split; [exact F1|exact T1].
  Qed.
  Theorem rel_step_ok s e :
    inv s -> env_ok s -> rel_ok s e ->
    (rel_step s e = None /\ SEQ < span s + cost s e) \/
    exists s', rel_step s e = Some s' /\ inv s' /\ env_ok s' /\ span s' <= span s + cost s e.
  Proof.
    intros HI [HE1 HE2] Hok. destruct e as [frags pkt i|p|tx| |d m b]; cbn [Rel_Model.rel_step cost] in *; [|cbn [rel_ok] in Hok..].
    - destruct (handle_ok frags pkt i s HI Hok) as [[E1 ?]|(s1 & l & E1 & I1 & S1 & D1 & F1 & _)]; rewrite E1; [by left|right]. destruct (send_each_ok l s1 I1) as (s2 & E2 & I2 & S2 & D2 & _).
      { intros q Hq'. apply elem_of_list_lookup in Hq' as [j Hj]. destruct (Forall2_lookup_r _ _ _ _ _ F1 Hj) as (p & _ & tx & ->). apply bare_txseq with tx. by destruct p. }
      exists s2. split; [done|]. split; [done|]. split; [|rewrite S2; exact S1]. unfold side in D2. injection D2 as ? E Ee ? ? ? ? ?. destruct D1 as [D1 D1']. destruct Hok as [He _]. unfold env_ok. rewrite E, D1. split; [done|]. congruence.
    - unfold Rel_Model.process_incoming. rewrite Hok. cbn. destruct (acks_ok (lp_acks p) s HI) as [[E1 ?]|(s1 & E1 & I1 & S1 & D1)]; rewrite E1; [by left|right].
      assert (He1 : r_enabled s1 = true /\ r_mtu s1 = r_mtu s) by (unfold side in D1; injection D1; intros; split; congruence).
      assert (Hg : forall s2 (b : bool), inv s2 -> span s2 = span s1 -> r_enabled s2 = r_enabled s1 -> r_mtu s2 = r_mtu s1 ->
        exists s', fst <$> Some (s2, b) = Some s' /\ inv s' /\ env_ok s' /\ span s' <= span s + N.of_nat (length (lp_acks p) * size (r_unacked s))).
      { intros s2 b0 J2 Q2 P2 M2. exists s2. split; [done|]. split; [done|]. split; [|lia]. destruct He1 as [X Y]. split; [by rewrite M2, Y|]. rewrite P2. congruence. }
      destruct (lp_frag p); [|by apply Hg]. destruct (lp_txseq p) as [tx|]; [|by apply Hg].
      destruct (lp_seq p) as [sq|].
      + destruct (purge _ _ _ _) as [mm qq]. cbn [r_idle set_recent set_rel_acks set_rx]; destruct (r_idle s1); (apply Hg; [exact I1|reflexivity..]).
      + cbn [r_idle set_recent set_rel_acks set_rx]; destruct (r_idle s1); (apply Hg; [exact I1|reflexivity..]).
    - destruct Hok as (u & t & Hu & _). destruct (lost_ok tx u s HI Hu) as [[E Hx]|(s' & r & E & I' & S' & _ & _ & _ & D' & _)]; rewrite E; [left; split; [done|lia]|right].
      exists s'. split; [done|]. split; [done|]. split; [|done]. unfold side in D'. injection D' as ? E1 E2 ? ? E3 ? ?. unfold env_ok. rewrite E1, E2, E3. done.
    - destruct Hok as (t & Ht & _). unfold on_idle. destruct (idle_ok (length (r_acks s)) (set_idle None s)) as (s' & E & I' & S' & D' & _).
      + done.
      + destruct (r_enabled s) eqn:Ee; [done|]. rewrite HE2 in Ht; done.
      + done.
      + done.
      + cbn in *. rewrite E. right. exists s'. split; [done|]. split; [done|]. split; [|rewrite S'; unfold span; cbn; lia]. unfold side in D'. cbn in D'. injection D' as ? E1 E2 ? ? E3 ?. unfold env_ok. rewrite E1, E2, E3. done.
    - destruct Hok as [Hd Hm]. right. eexists. split; [reflexivity|]. destruct (r_enabled s && negb b) eqn:Eb.
      + split; [done|]. split; [split; done|unfold span; cbn; lia].
      + split; [done|]. split; [|unfold span; cbn; lia]. split; [done|]. cbn. intros ->. apply HE2. by destruct (r_enabled s).
  Qed.
End step.
