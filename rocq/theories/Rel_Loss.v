(** Link reliability: what happens to lost fragments. *)
From stdpp Require Import gmap.
From Verif Require Import Lib Lp_Model Rel_Model Rel_Spec Rel_Win Rel_Inv Rel_Step Rel_Dup.

Local Open Scope N_scope.

Section loss.
  Variables (max_retx : N) (idle_period : Z) (thr : N) (rto : list Z -> Z).
  Notation inv := (inv max_retx).
  Lemma lost_exact tx u s s' r :
    inv s -> r_unacked s !! tx = Some u -> on_lost max_retx rto false tx s = Some (s', r) ->
    exists L, r_log s' = L ++ r_log s /\
      if decide (max_retx <= ua_retx u) then given_up s s' u L /\ (forall k, k ∈ r <-> exists v, r_unacked s !! k = Some v /\ ua_net v = ua_net u)
      else resent (r_now s) (rto (r_rtt s)) s s' tx u L /\ r = [tx].
  Proof.
    intros (Hw & Hi & Hb) Hu. pose proof Hi as []. unfold on_lost. rewrite Hu.
    destruct (i_un tx u Hu) as (np & Hn & Hin). rewrite Hn. destruct (i_frag tx u Hu) as (seq & Hs & Ht & Htm & Hr & Hc). rewrite Hs.
    destruct (i_net _ _ Hn) as (Hid & Hnd & Hall).
    assert (Hmem : forall k v, r_unacked s !! k = Some v -> (k ∈ np_frags np <-> ua_net v = ua_net u)).
    { intros k v Hv. split.
      - intros Hk. destruct (Hall k Hk) as (v' & ? & ?). congruence.
      - intros E. destruct (i_un k v Hv) as (np' & Hn' & Hk). rewrite E in Hn'. congruence. }
    destruct (N.leb_spec max_retx (ua_retx u)) as [Hmax|Hmax].
    - set (others := List.filter (fun k => negb (k =? tx)) (np_frags np)).
      assert (Ho : forall x, x ∈ others <-> x ∈ np_frags np /\ x <> tx).
      { intros x. unfold others. rewrite elem_of_list_In, filter_In, <- elem_of_list_In, negb_true_iff, N.eqb_neq. done. }
      destruct (delete_each_ok others s) as (s1 & E1 & F1 & W1 & S1 & U1); [done|apply NoDup_ListNoDup, List.NoDup_filter, NoDup_ListNoDup; done| |].
      { intros x [Hx _]%Ho. destruct (Hall x Hx) as (v & Hv & _). eauto. }
      rewrite E1. set (s3 := if np_interest np then _ else _).
      assert (K : r_unacked s3 = r_unacked s1 /\ r_log s3 = (if np_interest np then [ODropped (np_pkt np)] else []) ++ OFate (ua_net u) Exhausted :: r_log s /\ winr s3).
      { unfold s3, winr in *. assert (EL : r_log s1 = r_log s) by (rewrite F1; done). destruct (np_interest np); cbn; rewrite EL; done. }
      clearbody s3. destruct K as (K1 & K2 & W3).
      destruct (delete_ok tx s3 W3) as (s4 & E4 & F4 & U4 & W4 & S4).
      { rewrite K1, U1. rewrite decide_False; [eauto|]. intros [_ ?]%Ho. done. }
      rewrite E4. intros [= <- <-]. eexists. split; [|rewrite decide_True by done; split].
      + cbn. rewrite F4. cbn. rewrite K2. rewrite cons_middle, app_assoc. reflexivity.
      + exists np. split; [done|]. split; [done|]. intros k v. cbn. rewrite U4, K1, lookup_delete_Some, U1. destruct (decide (k ∈ others)) as [Hk|Hk].
        * split; [intros [_ ?]; done|]. intros [Hv Hne]. apply Ho in Hk as [Hk _]. apply (Hmem k v Hv) in Hk. done.
        * split.
          -- intros [Hne Hv]. split; [done|]. intros E. apply Hk, Ho. split; [by apply (Hmem k v Hv)|done].
          -- intros [Hv Hne]. split; [|done]. intros <-. apply Hne. congruence.
      + intros k. rewrite elem_of_app, elem_of_list_singleton, Ho. split.
        * intros [[Hk _]| ->]; [destruct (Hall k Hk) as (v & ? & ?); eauto|eauto].
        * intros (v & Hv & Ev). destruct (decide (k = tx)) as [->|Hne]; [by right|left]. split; [|done]. by apply (Hmem k v Hv).
    - destruct (assign_ok s Hw) as [[-> Hsp]|(new & -> & Hnew & Hnn & HW)]; [done|]. cbn [r_unacked set_last]. rewrite Hnn.
      destruct (list_find (fun k => k = tx) (np_frags np)) as [[i y]|] eqn:El; [|done].
      apply list_find_Some in El as (El & -> & _).
      set (nu := Unacked _ _ _ _ _ _). set (s3 := set_nets _ _).
      assert (W3 : winr s3).
      { unfold winr, s3. cbn. apply HW; [|done]. intros E. rewrite E, lookup_empty in Hu. done. }
      destruct (delete_ok tx s3 W3) as (s4 & E4 & F4 & U4 & W4 & S4).
      { cbn. rewrite lookup_insert_ne by congruence. eauto. }
      rewrite E4.
      destruct (send_lp_ok (set_txseq (Some new) (ua_pkt u)) (log (OTx (ua_net u) seq new true) s4)) as (p' & acks & E5 & Hp' & _); [by apply bare_txseq with new|].
      rewrite E5. intros [= <- <-]. exists [OSend p'; OTx (ua_net u) seq new true]. split; [cbn; rewrite F4; done|]. rewrite decide_False by lia. split; [|done].
      exists seq, new, p'. split; [done|]. split; [done|]. split; [done|]. split; [done|]. intros k v. cbn. rewrite U4. cbn. rewrite lookup_delete_Some, lookup_insert_Some.
      split.
      + intros [H1 [[<- <-]|[H2 H3]]]; [by left|right; done].
      + intros [[-> ->]|[H1 H2]]; [split; [congruence|by left]|]. split; [done|]. right. split; [congruence|done].
  Qed.

  Lemma until_sorted a f m : f < SEQ -> (forall x, is_Some (m !! x) -> x < SEQ) -> is_Some (m !! a) ->
    forall k, k ∈ until a (keys_from f m) <-> is_Some (m !! k) /\ seq_sub k f < seq_sub a f.
  Proof.
    intros Hf Hm Ha.
    assert (HS : StronglySorted (fun x y => seq_sub x f < seq_sub y f) (keys_from f m)).
    { pose proof (keys_from_nodup f m) as Hnd. assert (Hb : forall x, x ∈ keys_from f m -> x < SEQ) by (intros x Hx%keys_from_elem; auto). revert Hnd Hb.
      unfold keys_from. set (ks := merge_sort N.le (elements (dom m))).
      assert (Hks : StronglySorted N.le ks) by (apply Sorted_StronglySorted; [intros ???; lia|apply Sorted_merge_sort; intros ??; lia]).
      assert (HF : forall P, StronglySorted N.le (List.filter P ks)).
      { intros P. induction Hks as [|x l Hl IH Hx]; cbn; [constructor|]. destruct (P x); [|done]. constructor; [done|]. rewrite Forall_forall in *. intros y.
        rewrite elem_of_list_In, filter_In, <- elem_of_list_In. intros [? _]. auto. }
      intros Hnd Hb. apply NoDup_app in Hnd as (N1 & N2 & N3).
      assert (HA : forall l, StronglySorted N.le l -> NoDup l -> (forall x, x ∈ l -> x < SEQ) -> (forall x, x ∈ l -> f <= x) \/ (forall x, x ∈ l -> x < f) -> StronglySorted (fun x y => seq_sub x f < seq_sub y f) l).
      { clear -Hf. intros l Hl Hn. induction Hl as [|x l Hl IH Hx]; [constructor|]. apply NoDup_cons in Hn as [Hn1 Hn2]. intros B C. constructor.
        - apply IH; [done|intros; apply B; by right|]. destruct C as [C|C]; [left|right]; intros; apply C; by right.
        - rewrite Forall_forall in *. intros y Hy. pose proof (Hx y Hy). assert (x <> y) by congruence. pose proof (B x ltac:(left)). pose proof (B y ltac:(by right)).
          destruct C as [C|C]; pose proof (C x ltac:(left)); pose proof (C y ltac:(by right)); [rewrite !seq_sub_ge by done|rewrite !seq_sub_lt by done]; lia. }
      assert (M1 : forall x, x ∈ List.filter (fun x => f <=? x) ks -> f <= x) by (intros x; rewrite elem_of_list_In, filter_In, N.leb_le; tauto).
      assert (M2 : forall x, x ∈ List.filter (fun x => x <? f) ks -> x < f) by (intros x; rewrite elem_of_list_In, filter_In, N.ltb_lt; tauto).
      assert (HA1 := HA _ (HF (fun x => f <=? x)) N1 ltac:(intros; apply Hb; apply elem_of_app; by left) (or_introl M1)).
      assert (HA2 := HA _ (HF (fun x => x <? f)) N3 ltac:(intros; apply Hb; apply elem_of_app; by right) (or_intror M2)).
      set (A := List.filter (fun x => f <=? x) ks) in *. set (B := List.filter (fun x => x <? f) ks) in *. clearbody A B. clear N1 N2 N3 HA HF.
      induction HA1 as [|x l Hl IH Hx]; [done|]. cbn. constructor.
      - apply IH; intros; [apply Hb; by right|apply M1; by right].
      - apply Forall_app. split; [done|]. rewrite Forall_forall. intros y Hy. pose proof (M1 x ltac:(left)). pose proof (M2 y Hy).
        assert (x < SEQ) by (apply Hb; left). rewrite seq_sub_ge by done. rewrite seq_sub_lt by done. lia. }
    intros k. rewrite <- keys_from_elem with (k := f). apply (keys_from_elem f a) in Ha. revert Ha. clear -HS. induction HS as [|x l Hl IH Hx]; [by intros ?%elem_of_nil|].
    rewrite Forall_forall in Hx. cbn. destruct (N.eqb_spec x a) as [->|Hne].
    - intros _. split; [by intros ?%elem_of_nil|]. intros [[->|Hk]%elem_of_cons Hlt]; [lia|]. specialize (Hx k Hk). cbn in Hx. lia.
    - intros [->|Ha]%elem_of_cons; [done|]. rewrite !elem_of_cons, (IH Ha). pose proof (Hx a Ha) as Hxa. cbn in Hxa. split; [intros [->|[? ?]]; auto|intros [[->|?] ?]; auto].
  Qed.

  Lemma lose_each_exact l : forall removed s s',
    inv s -> NoDup l -> (forall x, x ∈ l -> x ∈ removed \/ is_Some (r_unacked s !! x)) -> lose_each max_retx rto false l removed s = Some s' ->
    exists L, r_log s' = L ++ r_log s /\
      (forall k v, r_unacked s !! k = Some v -> r_unacked s' !! k = Some v \/ k ∈ l \/ OFate (ua_net v) Exhausted ∈ L) /\
      (forall k v seq, r_unacked s !! k = Some v -> lp_seq (ua_pkt v) = Some seq -> k ∈ l -> k ∉ removed ->
         (exists new, OTx (ua_net v) seq new true ∈ L) \/ OFate (ua_net v) Exhausted ∈ L).
  Proof.
    induction l as [|x l IH]; intros removed s s' HI Hn Hl; cbn.
    - intros [= <-]. exists []. split; [done|]. split; [auto|]. intros ? ? ? ? ? ?%elem_of_nil. done.
    - apply NoDup_cons in Hn as [Hx Hn]. destruct (decide (x ∈ removed)) as [Hr|Hr].
      + intros H. destruct (IH removed s s') as (L & L1 & L2 & L3); try done; [intros; apply Hl; by right|]. exists L. split; [done|]. split.
        * intros k v Hv. destruct (L2 k v Hv) as [?|[?|?]]; [by left|right; left; by right|right; by right].
        * intros k v seq Hv Hs [->|Hk]%elem_of_cons Hkr; [done|eauto].
      + destruct (Hl x) as [?|[u Hu]]; [left|done|].
        destruct (lost_ok max_retx rto x u s HI Hu) as [[E ?]|(s1 & r & E & I1 & _ & _ & R1 & M1 & _)]; rewrite E; [done|]. intros H.
        destruct (lost_exact x u s s1 r HI Hu E) as (L0 & EL0 & Hex).
        destruct (IH (removed ++ r) s1 s') as (L & L1 & L2 & L3); try done.
        { intros y Hy. destruct (Hl y) as [?|[v Hv]]; [by right|left; apply elem_of_app; by left|]. destruct (decide (y ∈ r)); [left; apply elem_of_app; by right|].
          right. exists v. by apply M1. }
        assert (HR : forall k v, r_unacked s !! k = Some v -> k ∈ r -> k = x \/ OFate (ua_net v) Exhausted ∈ L0).
        { intros k v Hv Hk. destruct (decide _) in Hex.
          - destruct Hex as [(np & _ & -> & _) Hr']. right. apply Hr' in Hk as (v' & ? & Ev). assert (v' = v) as -> by congruence. rewrite Ev. apply elem_of_app. right. left.
          - destruct Hex as [_ ->]. apply elem_of_list_singleton in Hk. by left. }
        assert (HX : forall seq, lp_seq (ua_pkt u) = Some seq -> (exists new, OTx (ua_net u) seq new true ∈ L0) \/ OFate (ua_net u) Exhausted ∈ L0).
        { intros seq Hseq. destruct (decide _) in Hex.
          - destruct Hex as [(np & _ & -> & _) _]. right. apply elem_of_app. right. left.
          - destruct Hex as [(seq' & new & p' & Hs' & _ & -> & _) _]. left. assert (seq' = seq) as -> by congruence. exists new. right. left. }
        exists (L ++ L0). split; [rewrite L1, EL0, app_assoc; done|]. split.
        * intros k v Hv. destruct (decide (k ∈ r)) as [Hk|Hk].
          -- destruct (HR k v Hv Hk) as [->|?]; [right; left; left|right; right; apply elem_of_app; by right].
          -- destruct (L2 k v (M1 k v Hv Hk)) as [?|[?|?]]; [by left|right; left; by right|right; right; apply elem_of_app; by left].
        * intros k v seq Hv Hs Hkl Hkr. destruct (decide (k = x)) as [->|Hne].
          -- assert (v = u) as -> by congruence. destruct (HX seq Hs) as [[new ?]|?]; [left; exists new|right]; apply elem_of_app; by right.
          -- apply elem_of_cons in Hkl as [?|Hkl]; [done|]. destruct (decide (k ∈ r)) as [Hk|Hk].
             ++ destruct (HR k v Hv Hk) as [?|?]; [done|right; apply elem_of_app; by right].
             ++ destruct (L3 k v seq (M1 k v Hv Hk) Hs Hkl) as [[new ?]|?]; [by intros [?|?]%elem_of_app|left; exists new|right]; apply elem_of_app; by left.
  Qed.

  Lemma bump_exact l m x : NoDup l ->
    foldr bump m l !! x = if decide (x ∈ l) then (fun u => Unacked (ua_pkt u) (ua_timer u) (ua_sent u) (ua_retx u) (ua_greater u + 1) (ua_net u)) <$> m !! x else m !! x.
  Proof.
    induction 1 as [|a l Ha Hn IH]; cbn [foldr].
    - rewrite decide_False by apply not_elem_of_nil. done.
    - unfold bump at 1. destruct (decide (a = x)) as [->|Hne].
      + rewrite lookup_alter, IH, decide_False by done. rewrite decide_True by left. done.
      + rewrite lookup_alter_ne, IH by done. destruct (decide (x ∈ l)) as [Hx|Hx]; [rewrite decide_True by (by right); done|].
        rewrite decide_False; [done|]. intros [->|?]%elem_of_cons; done.
  Qed.

  (** an Ack of an outstanding fragment *)
  Lemma ack_exact a u s s' :
    inv s -> r_unacked s !! a = Some u -> on_ack max_retx thr rto false a s = Some s' ->
    exists L, r_log s' = L ++ r_log s /\ OAck a ∈ L /\
      (r_rtt s' = if ua_retx u =? 0 then (r_now s - ua_sent u)%Z :: r_rtt s else r_rtt s) /\
      forall k v seq, r_unacked s !! k = Some v -> k <> a -> lp_seq (ua_pkt v) = Some seq ->
        if decide (before s k a /\ thr <= ua_greater v + 1)
        then (exists new, OTx (ua_net v) seq new true ∈ L) \/ OFate (ua_net v) Exhausted ∈ L
        else r_unacked s' !! k = Some (bumped s a k v) \/ OFate (ua_net v) Exhausted ∈ L.
  Proof.
    intros HI Hu. unfold on_ack. rewrite Hu. set (s1 := if ua_retx u =? 0 then _ else s).
    assert (K : inv s1 /\ r_unacked s1 = r_unacked s /\ r_first s1 = r_first s /\ r_log s1 = r_log s /\ r_rtt s1 = if ua_retx u =? 0 then (r_now s - ua_sent u)%Z :: r_rtt s else r_rtt s) by (unfold s1; destruct (ua_retx u =? 0); done).
    clearbody s1. destruct K as (I1 & U1 & F1 & G1 & T1).
    assert (I2 : inv (log (OAck a) s1)).
    { destruct I1 as (A & B & C). split; [exact A|]. split; [apply inv_neutral; [done|exact B]|exact C]. }
    destruct (find_lost_ok max_retx thr a u (log (OAck a) s1) I2) as (s2 & lost & E2 & J2 & S2 & Z2 & N2 & A2 & L2 & Ha & D2 & T2 & G2); [cbn; by rewrite U1|].
    rewrite E2. cbn in G2.
    assert (Hinv : invl max_retx (r_unacked s2) (r_nets s2) (r_next s2) (r_log s1)).
    { unfold find_lost in E2. cbn in E2. destruct (r_first s1); [|done]. injection E2 as <- _. cbn. eapply inv_bump; [apply I1|]. intros x. apply bump_lookup. }
    destruct (acked_ok max_retx a (r_log s1) s2) as (s3 & E3 & I3 & S3 & U3 & D3 & T3); [apply J2|apply J2|done|done|done|].
    rewrite E3. intros H.
    assert (HL3 : exists L3, r_log s3 = L3 ++ OAck a :: r_log s).
    { unfold on_acked in E3. destruct (r_unacked s2 !! a) as [u0|] eqn:E0; [|done]. destruct (r_nets s2 !! ua_net u0); [|done]. destruct (list_find _ _) as [[i y]|]; [|done]. destruct (last _); [|done].
      set (s5 := match removelast _ with [] => _ | _ => _ end) in E3. assert (K5 : winr s5 /\ exists L3, r_log s5 = L3 ++ OAck a :: r_log s).
      { unfold s5. destruct (removelast _); cbn; (split; [apply J2|]); [eexists [_]|exists []]; cbn; rewrite G2, G1; done. }
      destruct K5 as [W5 [L5 K5]]. destruct (delete_ok a s5 W5) as (s6 & E6 & F6 & _); [unfold s5; destruct (removelast _); exists u0; exact E0|]. assert (s6 = s3) as -> by congruence. exists L5. rewrite F6. exact K5. }
    destruct HL3 as [L3 HL3].
    assert (Hl3 : forall x, x ∈ lost -> x ∈ [] \/ is_Some (r_unacked s3 !! x)).
    { intros x Hx. right. rewrite U3, lookup_delete_ne; [auto|]. intros ->. done. }
    destruct (lose_each_exact lost [] s3 s' I3 N2 Hl3 H) as (L & EL & H1 & H2).
    exists (L ++ L3 ++ [OAck a]). split; [rewrite EL, HL3, <- !app_assoc; done|]. split; [apply elem_of_app; right; apply elem_of_app; right; left|].
    split.
    { rewrite <- T1. transitivity (r_rtt s3); [|transitivity (r_rtt s2); [done|exact T2]].
      destruct (lose_each_ok max_retx thr rto lost [] s3 I3 N2 Hl3) as [[E ?]|(s4 & E & _ & _ & _ & _ & T4)]; [congruence|]. assert (s4 = s') as -> by congruence. done. }
    intros k v seq Hv Hne Hseq.
    (* what find_lost does *)
    pose proof HI as ((_ & Hlt & Hf) & _ & _). unfold find_lost in E2. cbn in E2. rewrite F1, U1 in E2.
    assert (Hex : exists f, r_first s = Some f) by (destruct (r_first s) as [f|]; [eauto|rewrite Hf, lookup_empty in Hv; done]).
    destruct Hex as [f Ef]. rewrite Ef in E2, Hf. destruct Hf as [Hf1 Hf2]. injection E2 as <- <-. cbn in *.
    assert (Hbf : before s k a <-> seq_sub k f < seq_sub a f) by (unfold before; rewrite Ef; done).
    assert (Hbe : forall k, k ∈ until a (keys_from f (r_unacked s)) <-> is_Some (r_unacked s !! k) /\ seq_sub k f < seq_sub a f) by (apply until_sorted; eauto).
    set (bl := until a (keys_from f (r_unacked s))) in *.
    assert (Hnb : NoDup bl) by (apply until_nodup, keys_from_nodup).
    assert (Hk : foldr bump (r_unacked s) bl !! k = Some (bumped s a k v)).
    { rewrite bump_exact by done. unfold bumped. destruct (decide (k ∈ bl)) as [Hb|Hb].
      - rewrite decide_True by (by apply Hbf, Hbe). rewrite Hv. done.
      - rewrite decide_False; [done|]. intros ?. apply Hb, Hbe. split; [eauto|by apply Hbf]. }
    assert (Hnet : ua_net (bumped s a k v) = ua_net v /\ ua_pkt (bumped s a k v) = ua_pkt v) by (unfold bumped; destruct (decide _); done). destruct Hnet as [En Ep].
    assert (Hk3 : r_unacked s3 !! k = Some (bumped s a k v)) by (rewrite U3, lookup_delete_ne by done; exact Hk).
    assert (Hlost : k ∈ List.filter (fun k => match foldr bump (r_unacked s) bl !! k with Some u => thr <=? ua_greater u | None => false end) bl <->
      before s k a /\ thr <= ua_greater v + 1).
    { rewrite elem_of_list_In, filter_In, <- elem_of_list_In, Hbe, Hk, N.leb_le, <- Hbf. unfold bumped. split.
      - intros [[_ Hb] Hg]. rewrite decide_True in Hg by done. done.
      - intros [Hb Hg]. rewrite decide_True by done. split; [split; [eauto|done]|done]. }
    destruct (decide (_ /\ _)) as [Hd|Hd].
    - apply Hlost in Hd. destruct (H2 k _ seq Hk3) as [[new Hn]|Hn]; [by rewrite Ep|done|apply not_elem_of_nil|left; exists new|right]; rewrite En in Hn; apply elem_of_app; by left.
    - destruct (H1 k _ Hk3) as [Hn|[Hn|Hn]]; [by left|by apply Hlost in Hn|right; rewrite En in Hn; apply elem_of_app; by left].
  Qed.
End loss.
