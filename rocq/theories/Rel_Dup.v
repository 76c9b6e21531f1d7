(** Link reliability: histories, duplicates, acknowledgements. *)
From stdpp Require Import gmap.
From Verif Require Import Lib Lp_Model Rel_Model Rel_Spec Rel_Win Rel_Inv Rel_Step.

Local Open Scope N_scope.

Section dup.
  Variables (max_retx : N) (idle_period : Z) (thr : N) (rto : list Z -> Z).
  Notation rel_step := (rel_step max_retx idle_period thr rto false).
  Notation process_incoming := (process_incoming max_retx idle_period thr rto false).
  Notation reached := (reached max_retx idle_period thr rto).
  Notation rel_hist := (rel_hist max_retx idle_period thr rto).
  Notation inv := (inv max_retx).

  Lemma inv_new t m b : inv (rel_new t m b).
  Proof.
    split; [split; [change (SEQ - 1 < SEQ); unfold SEQ; lia|split; [|done]]|split].
    - intros k [? Hk]. cbn in Hk. rewrite lookup_empty in Hk. done.
    - cbn. split; try (intros; rewrite ?lookup_empty in *; done); try (intros; by match goal with H : _ ∈ [] |- _ => apply elem_of_nil in H end).
      intros id seq. cbn. lia.
    - intros id np Hn. cbn in Hn. rewrite lookup_empty in Hn. done.
  Qed.
  Lemma hist_inv s0 l s : rel_hist s0 l s -> inv s0 -> env_ok s0 -> inv s /\ env_ok s.
  Proof.
    induction 1 as [|s0 l s e s' H IH Hok Hs]; [done|]. intros I0 E0. destruct (IH I0 E0) as [I1 E1].
    destruct (rel_step_ok max_retx idle_period thr rto s e I1 E1 Hok) as [[? _]|(s2 & ? & ? & ? & _)]; [congruence|]. assert (s2 = s') as -> by congruence. done.
  Qed.
  Lemma reached_inv s : reached s -> inv s /\ env_ok s.
  Proof. intros (t & m & b & l & Hm & H). eapply hist_inv; [exact H|apply inv_new|]. split; done. Qed.

  (** * the verdicts *)
  Definition view s := (r_recent s, r_queue s, r_rx s, r_now s).
  Lemma incoming_cases p s s' b :
    inv s -> process_incoming p s = Some (s', b) ->
    (b = true /\ view s' = view s /\ (lp_frag p = None \/ lp_txseq p = None \/ lp_seq p = None)) \/
    (exists sq r m q, lp_seq p = Some sq /\ is_Some (lp_frag p) /\ is_Some (lp_txseq p) /\
       b = negb (bool_decide (is_Some (r_recent s !! sq))) /\
       r_rx s' = Rx sq (r_now s) r (negb b) :: r_rx s /\ r_now s' = r_now s /\
       purge (r_now s) r (r_recent s) (r_queue s) = (m, q) /\ r_queue s' = q ++ [sq] /\
       r_recent s' = match m !! sq with Some _ => m | None => <[sq := r_now s]> m end).
  Proof.
    intros HI H. unfold Rel_Model.process_incoming in H. destruct (r_enabled s); [cbn in H|done].
    destruct (acks_ok max_retx thr rto (lp_acks p) s HI) as [[E _]|(s1 & E & I1 & _ & D1)]; rewrite E in H; [done|].
    unfold side in D1. injection D1 as En Em Ee Er Eq Ei Ex Eh.
    assert (Hv : view s1 = view s) by (unfold view; congruence).
    destruct (lp_frag p); [|injection H as <- <-; left; auto]. destruct (lp_txseq p); [|injection H as <- <-; left; auto].
    destruct (lp_seq p) as [sq|].
    - right. destruct (purge _ _ _ _) as [m q] eqn:Ep. cbn [r_idle set_recent set_rel_acks set_rx] in H. rewrite Er, Eq, En in Ep.
      exists sq, (rto (r_rtt s1)), m, q. split; [done|]. split; [eauto|]. split; [eauto|].
      assert (Eb : b = negb (bool_decide (is_Some (r_recent s !! sq)))).
      { injection H as _ <-. cbn. rewrite Er. destruct (r_recent s !! sq); [rewrite bool_decide_true by eauto; done|rewrite bool_decide_false by (intros [? ?]; done); done]. }
      split; [done|]. assert (Ed : negb b = match r_recent s1 !! sq with Some _ => true | None => false end).
      { injection H as _ <-. cbn. by rewrite negb_involutive. }
      rewrite Ed. destruct (r_idle s1); injection H as <- _; cbn; rewrite Eh, En, ?Er; (do 4 (split; [done|])); destruct (m !! sq); done.
    - left. cbn [r_idle set_recent set_rel_acks set_rx] in H. destruct (r_idle s1); injection H as <- <-; (split; [done|]); (split; [done|]); auto.
  Qed.
  Lemma step_view s e s' :
    inv s -> env_ok s -> rel_ok s e -> rel_step s e = Some s' ->
    (r_recent s' = r_recent s /\ r_queue s' = r_queue s /\ r_rx s' = r_rx s /\ (r_now s <= r_now s')%Z) \/
    (exists p b, e = RlIn p /\ process_incoming p s = Some (s', b)).
  Proof.
    intros HI [HE1 HE2] Hok H. destruct e as [frags pkt i|p|tx| |d m b]; cbn [Rel_Model.rel_step rel_ok] in *.
    - left. destruct Hok as (He & _). unfold handle_outgoing in H. rewrite He in H.
      assert (Hof : forall id fr s1 s2 l, out_frags rto id fr s1 = Some (s2, l) -> view s2 = view s1).
      { intros id fr. induction fr as [|f fr IH]; cbn; intros s1 s2 l Hx; [injection Hx as <- <-; done|].
        destruct (out_frag rto id f s1) as [[s3 f1]|] eqn:E1; [|done]. destruct (out_frags rto id fr s3) as [[s4 l4]|] eqn:E2; [|done]. injection Hx as <- <-.
        rewrite (IH _ _ _ E2). clear -E1. unfold out_frag in E1. destruct (lp_seq f); [|done]. destruct (assign_tx s1) as [[s5 t5]|] eqn:E5; [|done].
        assert (V : view s5 = view s1). { unfold assign_tx in E5. repeat case_match; try done; by injection E5 as <- <-. }
        destruct (decide _); cbn in E1; (destruct (r_nets s5 !! id); [|done]); injection E1 as <- <-; done. }
      assert (Hse : forall l s1 s2, send_each l s1 = Some s2 -> view s2 = view s1).
      { induction l as [|q l IH]; cbn; intros s1 s2 Hx; [by injection Hx as <-|]. destruct (send_lp q s1) as [s3|] eqn:E; [|done]. rewrite (IH _ _ Hx). clear -E.
        unfold send_lp in E. repeat case_match; try done; by injection E as <-. }
      destruct (out_frags _ _ _ _) as [[s1 l]|] eqn:E; [|done]. apply Hse in H. apply Hof in E. rewrite E in H. unfold view in H. cbn in H. injection H as -> -> -> ->. done.
    - right. destruct (process_incoming p s) as [[s1 b]|] eqn:E; [|done]. injection H as <-. eauto.
    - left. destruct Hok as (u & t & Hu & _). destruct (lost_ok max_retx rto tx u s HI Hu) as [[E _]|(s1 & r & E & _ & _ & _ & _ & _ & D & _)]; rewrite E in H; [done|].
      injection H as <-. unfold side in D. injection D as -> _ _ -> -> _ _ ->. done.
    - left. destruct Hok as (t & Ht & _). unfold on_idle in H. destruct (idle_ok max_retx (length (r_acks s)) (set_idle None s)) as (s1 & E & _ & _ & D & _); try done.
      + cbn. destruct (r_enabled s) eqn:Ee; [done|]. rewrite HE2 in Ht; done.
      + cbn in *. rewrite E in H. injection H as <-. unfold side in D. injection D as -> _ _ -> -> _ _ ->. done.
    - left. injection H as <-. destruct Hok as [? _]. destruct (_ && _); cbn; (do 3 (split; [done|])); lia.
  Qed.

  (** only Sequences that were received are remembered *)
  Definition known (s : rel) : Prop := forall x, is_Some (r_recent s !! x) \/ x ∈ r_queue s -> exists h, h ∈ r_rx s /\ rx_seq h = x.
  Lemma purge_incl t r q : forall m m' q', purge t r m q = (m', q') ->
    (forall x, is_Some (m' !! x) -> is_Some (m !! x) \/ x ∈ q) /\ (forall x, x ∈ q' -> x ∈ q).
  Proof.
    induction q as [|a q IH]; cbn; intros m m' q' H; [injection H as <- <-; auto|].
    destruct (_ <? t)%Z.
    - destruct (IH _ _ _ H) as [H1 H2]. split; [|intros; right; auto]. intros x Hx. destruct (H1 x Hx) as [[z [_ Hz]%lookup_delete_Some]|?]; [left; eauto|right; by right].
    - injection H as <- <-. split; [|auto]. intros x [z [[<- _]|[_ Hz]]%lookup_insert_Some]; [right; left|left; eauto].
  Qed.
  Lemma known_step p s s' b : inv s -> known s -> process_incoming p s = Some (s', b) -> known s'.
  Proof.
    intros HI HK H. destruct (incoming_cases p s s' b HI H) as [(_ & Hv & _)|(sq & r & m & q & _ & _ & _ & _ & Hx & _ & Hp & Hq & Hm)].
    - unfold view in Hv. injection Hv as E1 E2 E3 E4. unfold known. rewrite E1, E2, E3. done.
    - destruct (purge_incl _ _ _ _ _ _ Hp) as [P1 P2]. unfold known. rewrite Hx, Hq, Hm.
      assert (G : forall x, x = sq \/ is_Some (m !! x) \/ x ∈ q -> exists h, h ∈ Rx sq (r_now s) r (negb b) :: r_rx s /\ rx_seq h = x).
      { intros x [->|Hy]; [eexists; split; [left|done]|]. destruct (HK x) as (h & ? & ?); [|exists h; split; [by right|done]]. destruct Hy as [Hy|Hy]; [by apply P1|right; by apply P2]. }
      intros x [Hy|[Hy| ->%elem_of_list_singleton]%elem_of_app]; apply G; [|by right; right|by left].
      destruct (m !! sq) eqn:E; [by right; left|]. destruct Hy as [z [[<- _]|[_ Hz]]%lookup_insert_Some]; [by left|right; left; eauto].
  Qed.
  Lemma known_reached s : reached s -> known s.
  Proof.
    intros (t & m & b & l & Hm & H). assert (E : inv (rel_new t m b) /\ env_ok (rel_new t m b)) by (split; [apply inv_new|split; done]). destruct E as [I0 E0].
    assert (K0 : known (rel_new t m b)). { intros x [[z Hz]|Hx]; [cbn in Hz; rewrite lookup_empty in Hz; done|by apply elem_of_nil in Hx]. }
    clear Hm. induction H as [|s0 l s e s' H IH Hok Hs]; [done|]. specialize (IH I0 E0 K0). destruct (hist_inv _ _ _ H I0 E0) as [I1 E1].
    destruct (step_view s e s' I1 E1 Hok Hs) as [(V1 & V2 & V3 & _)|(p & b' & -> & Hp)]; [|by eapply known_step].
    unfold known. rewrite V1, V2, V3. done.
  Qed.

  (** an accepted Sequence stays until its time has come *)
  Definition keeps (s : rel) : Prop := forall l1 l2 h, r_rx s = l1 ++ h :: l2 -> rx_dup h = false ->
    (forall g, g ∈ r_rx s -> (rx_rto g < rx_time g)%Z) ->
    (forall g, g ∈ l1 -> (rx_time g <= rx_time h + rx_rto g)%Z) ->
    exists z, r_recent s !! rx_seq h = Some z /\ (rx_time h <= z)%Z.
  Lemma purge_keeps t r q : (r < t)%Z -> forall m m' q', purge t r m q = (m', q') ->
    (forall x z, m' !! x = Some z -> m !! x = Some z) /\ (forall x z, m !! x = Some z -> (t <= z + r)%Z -> m' !! x = Some z).
  Proof.
    intros Hr. induction q as [|a q IH]; cbn; intros m m' q' H; [injection H as <- <-; auto|].
    destruct (m !! a) as [za|] eqn:Ea.
    - destruct (Z.ltb_spec (za + r) t) as [Hlt|Hge].
      + destruct (IH _ _ _ H) as [H1 H2]. split.
        * intros x z Hx%H1. by apply lookup_delete_Some in Hx as [_ ?].
        * intros x z Hx Hz. apply H2; [|done]. rewrite lookup_delete_ne; [done|]. intros ->. assert (za = z) as -> by congruence. lia.
      + injection H as <- <-. rewrite insert_id by done. auto.
    - destruct (Z.ltb_spec (0 + r) t) as [Hlt|Hge]; [|lia]. destruct (IH _ _ _ H) as [H1 H2]. rewrite delete_notin in H1, H2 by done. auto.
  Qed.
  Lemma keeps_step p s s' b : inv s -> keeps s -> process_incoming p s = Some (s', b) -> keeps s'.
  Proof.
    intros HI HK H. destruct (incoming_cases p s s' b HI H) as [(_ & Hv & _)|(sq & r & m & q & _ & _ & _ & Hb & Hx & _ & Hp & Hq & Hm)].
    - unfold view in Hv. injection Hv as E1 E2 E3 E4. unfold keeps. rewrite E1, E3. done.
    - intros l1 l2 h Hl Hd Ha Hk. rewrite Hx in Hl, Ha.
      assert (Hr : (r < r_now s)%Z) by (apply (Ha (Rx sq (r_now s) r (negb b))); left).
      destruct (purge_keeps _ _ _ Hr _ _ _ Hp) as [P1 P2]. rewrite Hm. destruct l1 as [|g l1].
      + injection Hl as <- _. cbn in *. destruct (m !! sq) eqn:E; [|exists (r_now s); rewrite lookup_insert; split; [done|lia]].
        apply P1 in E. rewrite E in Hb. rewrite bool_decide_true in Hb by eauto. subst b. done.
      + injection Hl as <- Hl. destruct (HK l1 l2 h Hl Hd) as (z & Hz & Hle).
        { intros g Hg. apply Ha. by right. }
        { intros g Hg. apply Hk. by right. }
        exists z. split; [|done]. assert (E : m !! rx_seq h = Some z).
        { apply P2; [done|]. assert (Hg : (r_now s <= rx_time h + r)%Z) by (apply (Hk (Rx sq (r_now s) r (negb b))); left). lia. }
        destruct (m !! sq) eqn:E2; [done|]. rewrite lookup_insert_ne; [done|]. intros ->. congruence.
  Qed.
  Lemma keeps_reached s : reached s -> keeps s.
  Proof.
    intros (t & m & b & l & Hm & H). assert (E : inv (rel_new t m b) /\ env_ok (rel_new t m b)) by (split; [apply inv_new|split; done]). destruct E as [I0 E0].
    assert (K0 : keeps (rel_new t m b)). { intros l1 l2 h Hl. by destruct l1. }
    clear Hm. induction H as [|s0 l s e s' H IH Hok Hs]; [done|]. specialize (IH I0 E0 K0). destruct (hist_inv _ _ _ H I0 E0) as [I1 E1].
    destruct (step_view s e s' I1 E1 Hok Hs) as [(V1 & V2 & V3 & _)|(p & b' & -> & Hp)]; [|by eapply keeps_step].
    unfold keeps. rewrite V1, V3. done.
  Qed.

  (** * Acks *)
  Definition plain (s : rel) : Prop := forall tx u, r_unacked s !! tx = Some u -> lp_acks (ua_pkt u) = [].
  Definition owed (s : rel) : list N := acks_sent (r_log s) ++ r_acks s.
  Definition same (s s' : rel) : Prop := plain s -> plain s' /\ owed s' = owed s.
  Lemma same_refl s : same s s. Proof. done. Qed.
  Lemma same_trans s s1 s2 : same s s1 -> same s1 s2 -> same s s2.
  Proof. intros H1 H2 P. destruct (H1 P) as [P1 E1]. destruct (H2 P1) as [P2 E2]. split; [done|congruence]. Qed.
  Lemma take_acks_app z acks : forall x y, take_acks z acks = (x, y) -> x ++ y = acks.
  Proof.
    revert z. induction acks as [|a acks IH]; cbn; intros z x y H; [injection H as <- <-; done|].
    destruct (z <? ACK_SIZE)%Z; [injection H as <- <-; done|]. destruct (take_acks _ acks) eqn:E. injection H as <- <-. cbn. f_equal. eauto.
  Qed.
  Lemma same_send p s s' : lp_acks p = [] -> send_lp p s = Some s' -> same s s'.
  Proof.
    intros Hp. unfold send_lp. destruct (r_enabled s).
    - unfold piggyback. destruct (lp_bare p); [done|]. destruct (take_acks _ _) as [x y] eqn:E. intros [= <-] P. split; [exact P|].
      unfold owed. cbn. rewrite Hp, <- app_assoc. cbn. f_equal. by eapply take_acks_app.
    - intros [= <-] P. split; [exact P|]. unfold owed. cbn. rewrite Hp, app_nil_r. done.
  Qed.
  Lemma same_delete tx s s' : delete_unacked tx s = Some s' -> same s s'.
  Proof.
    unfold delete_unacked. destruct (r_first s); [|done]. destruct (r_unacked s !! tx); [|done]. destruct (r_unacked s !! n); [|done].
    intros H P. assert (P' : forall f, plain (set_first f (set_unacked (delete tx (r_unacked s)) s)) /\ plain (set_unacked (delete tx (r_unacked s)) s)).
    { intros f. split; intros tx' u'; cbn; intros [_ Hu]%lookup_delete_Some; eapply P; eauto. }
    destruct (decide _); [|destruct (_ =? _)]; injection H as <-; (split; [apply (P' None) || apply P'|done]).
  Qed.
  Lemma same_delete_each l : forall s s', delete_each l s = Some s' -> same s s'.
  Proof.
    induction l as [|x l IH]; cbn; intros s s' H; [injection H as <-; apply same_refl|]. destruct (delete_unacked x s) eqn:E; [|done].
    eapply same_trans; [by eapply same_delete|eauto].
  Qed.
  Lemma same_assign s s' tx : assign_tx s = Some (s', tx) -> same s s' /\ r_unacked s' = r_unacked s.
  Proof. unfold assign_tx. intros H. repeat case_match; try done; injection H as <- <-; done. Qed.
  Lemma same_lost tx s s' r : on_lost max_retx rto false tx s = Some (s', r) -> same s s'.
  Proof.
    unfold on_lost. destruct (r_unacked s !! tx) as [u|] eqn:Hu; [|done]. destruct (r_nets s !! ua_net u) as [np|]; [|done]. destruct (lp_seq (ua_pkt u)) as [seq|]; [|done].
    destruct (_ <=? _).
    - destruct (delete_each _ s) as [s1|] eqn:E1; [|done]. apply same_delete_each in E1. set (s3 := if np_interest np then _ else _).
      destruct (delete_unacked tx s3) as [s4|] eqn:E4; [|done]. apply same_delete in E4. intros [= <- <-].
      eapply same_trans; [exact E1|]. eapply same_trans; [|eapply same_trans; [exact E4|intros P; done]]. intros P. unfold s3. destruct (np_interest np); done.
    - destruct (assign_tx s) as [[s1 new]|] eqn:E1; [|done]. apply same_assign in E1 as [E1 U1]. destruct (r_unacked s1 !! new); [done|].
      destruct (list_find _ _) as [[i y]|]; [|done]. set (s3 := set_nets _ _). destruct (delete_unacked tx s3) as [s4|] eqn:E4; [|done]. apply same_delete in E4.
      destruct (send_lp _ _) as [s5|] eqn:E5; [|done]. intros [= <- <-] P. specialize (P tx u Hu) as Pu. apply same_send in E5; [|by destruct (ua_pkt u)].
      revert P. eapply same_trans; [exact E1|]. eapply same_trans; [|eapply same_trans; [exact E4|]].
      + intros P. split; [|done]. intros tx' u'. unfold s3. cbn. intros [[<- <-]|[_ Hu']]%lookup_insert_Some; [cbn; by destruct (ua_pkt u)|]. eapply P; eauto.
      + eapply same_trans; [|exact E5]. intros P. done.
  Qed.
  Lemma same_lose_each l : forall removed s s', lose_each max_retx rto false l removed s = Some s' -> same s s'.
  Proof.
    induction l as [|x l IH]; cbn; intros removed s s' H; [injection H as <-; apply same_refl|]. destruct (decide _); [eauto|].
    destruct (on_lost _ _ _ x s) as [[s1 r]|] eqn:E; [|done]. eapply same_trans; [by eapply same_lost|eauto].
  Qed.
  Lemma same_acked tx s s' : on_acked tx s = Some s' -> same s s'.
  Proof.
    unfold on_acked. repeat (case_match; try done); intros Hd%same_delete; (eapply same_trans; [|exact Hd]); done.
  Qed.
  Lemma same_find a s s' lost : find_lost thr a s = Some (s', lost) -> same s s'.
  Proof.
    unfold find_lost. destruct (r_first s); [|done]. intros [= <- _] P. split; [|done]. intros tx u. cbn. intros Hu.
    pose proof (bump_lookup (until a (keys_from n (r_unacked s))) (r_unacked s) tx) as Hb. rewrite Hu in Hb. destruct (r_unacked s !! tx) eqn:E; [|done].
    destruct Hb as (-> & _). eapply P; eauto.
  Qed.
  Lemma same_ack a s s' : on_ack max_retx thr rto false a s = Some s' -> same s s'.
  Proof.
    unfold on_ack. destruct (r_unacked s !! a) as [u|]; [|intros [= <-]; apply same_refl]. set (s1 := if ua_retx u =? 0 then _ else s).
    destruct (find_lost thr a (log (OAck a) s1)) as [[s2 lost]|] eqn:E2; [|done]. destruct (on_acked a s2) as [s3|] eqn:E3; [|done]. intros H.
    eapply same_trans; [|eapply same_trans; [by eapply same_find|eapply same_trans; [by eapply same_acked|by eapply same_lose_each]]].
    intros P. unfold s1. destruct (_ =? _); done.
  Qed.
  Lemma same_acks l : forall s s', on_acks max_retx thr rto false l s = Some s' -> same s s'.
  Proof.
    induction l as [|x l IH]; cbn; intros s s' H; [injection H as <-; apply same_refl|]. destruct (on_ack _ _ _ _ x s) as [s1|] eqn:E; [|done].
    eapply same_trans; [by eapply same_ack|eauto].
  Qed.
  Lemma same_incoming p s s' b : process_incoming p s = Some (s', b) -> plain s ->
    plain s' /\ owed s' = owed s ++ to_ack [RlIn p].
  Proof.
    unfold Rel_Model.process_incoming. destruct (negb _); [done|]. destruct (on_acks _ _ _ _ _ s) as [s1|] eqn:E1; [|done]. apply same_acks in E1.
    intros H P. destruct (E1 P) as [P1 O1]. cbn [to_ack]. destruct (lp_frag p); [|injection H as <- <-; rewrite app_nil_r; done]. destruct (lp_txseq p) as [tx|]; [|injection H as <- <-; rewrite app_nil_r; done].
    rewrite app_nil_r. assert (G : forall s2, r_unacked s2 = r_unacked s1 -> r_log s2 = r_log s1 -> r_acks s2 = r_acks s1 ++ [tx] -> plain s2 /\ owed s2 = owed s ++ [tx]).
    { intros s2 U2 L2 A2. split; [unfold plain; by rewrite U2|]. unfold owed. rewrite L2, A2, app_assoc. unfold owed in O1. by rewrite O1. }
    destruct (lp_seq p).
    - destruct (purge _ _ _ _). cbn [r_idle set_recent set_rel_acks set_rx] in H. destruct (r_idle s1); injection H as <- _; by apply G.
    - cbn [r_idle set_recent set_rel_acks set_rx] in H. destruct (r_idle s1); injection H as <- _; by apply G.
  Qed.
  Lemma same_out id fr : forall s s' l, (forall p, p ∈ fr -> lp_acks p = []) -> out_frags rto id fr s = Some (s', l) ->
    same s s' /\ forall p, p ∈ l -> lp_acks p = [].
  Proof.
    induction fr as [|f fr IH]; cbn; intros s s' l Hf H; [injection H as <- <-; split; [apply same_refl|intros ? ?%elem_of_nil; done]|].
    destruct (out_frag rto id f s) as [[s1 f1]|] eqn:E1; [|done]. destruct (out_frags rto id fr s1) as [[s2 l2]|] eqn:E2; [|done]. injection H as <- <-.
    assert (Ef : lp_acks f = []) by (apply Hf; left).
    destruct (IH s1 s2 l2) as [H2 H3]; [intros; apply Hf; by right|done|].
    assert (H1 : same s s1 /\ lp_acks f1 = []).
    { unfold out_frag in E1. destruct (lp_seq f); [|done]. destruct (assign_tx s) as [[s3 tx]|] eqn:E3; [|done]. apply same_assign in E3 as [E3 U3].
      set (u := match r_unacked s3 !! tx with Some _ => _ | None => _ end) in E1.
      assert (HP : plain s -> lp_acks (ua_pkt u) = []).
      { intros P. unfold u. destruct (r_unacked s3 !! tx) eqn:E; cbn; [rewrite U3 in E; eauto|by destruct f]. }
      set (s5 := if decide _ then _ else _) in E1. assert (K5 : r_unacked s5 = <[tx := u]> (r_unacked s3) /\ r_log s5 = r_log s3 /\ r_acks s5 = r_acks s3) by (unfold s5; destruct (decide _); done).
      clearbody s5 u. destruct K5 as (K1 & K2 & K3). destruct (r_nets s5 !! id); [|done]. injection E1 as <- <-. split; [|by destruct f].
      intros P. destruct (E3 P) as [P3 O3]. split.
      - intros tx' u'. cbn. rewrite K1. intros [[<- <-]|[_ Hu]]%lookup_insert_Some; [auto|]. eapply P3; eauto.
      - unfold owed in *. cbn. rewrite K2, K3. done. }
    destruct H1 as [H1 H4]. split; [by eapply same_trans|]. intros p [->|Hp]%elem_of_cons; auto.
  Qed.
  Lemma same_send_each l : forall s s', (forall p, p ∈ l -> lp_acks p = []) -> send_each l s = Some s' -> same s s'.
  Proof.
    induction l as [|p l IH]; cbn; intros s s' Hl H; [injection H as <-; apply same_refl|]. destruct (send_lp p s) as [s1|] eqn:E; [|done].
    eapply same_trans; [eapply same_send; [|done]; apply Hl; left|]. apply IH; [|done]. intros; apply Hl; by right.
  Qed.
  Lemma same_idle n : forall s s', idle_loop n s = Some s' -> same s s'.
  Proof.
    induction n as [|n IH]; cbn; intros s s' H.
    - destruct (r_acks s); [|done]. injection H as <-. apply same_refl.
    - destruct (r_acks s); [injection H as <-; apply same_refl|]. destruct (send_lp lp_empty s) as [s1|] eqn:E; [|done].
      eapply same_trans; [exact (same_send lp_empty s s1 eq_refl E)|eauto].
  Qed.
  Lemma same_step s e s' : no_acks e -> rel_step s e = Some s' -> plain s -> plain s' /\ owed s' = owed s ++ to_ack [e].
  Proof.
    intros Hn H P. destruct e as [frags pkt i|p|tx| |d m b]; cbn [Rel_Model.rel_step no_acks to_ack] in *; rewrite ?app_nil_r.
    - unfold handle_outgoing in H. destruct (r_enabled s); [|done]. destruct (out_frags _ _ _ _) as [[s1 l]|] eqn:E1; [|done].
      destruct (same_out _ _ _ _ _ Hn E1) as [H1 H2]. apply same_send_each in H; [|done]. by apply (same_trans _ _ _ H1 H).
    - destruct (process_incoming p s) as [[s1 b]|] eqn:E; [|done]. injection H as <-. pose proof (same_incoming p s s1 b E P) as HH. cbn in HH. rewrite app_nil_r in HH. exact HH.
    - destruct (on_lost _ _ _ tx s) as [[s1 r]|] eqn:E; [|done]. injection H as <-. eapply same_lost; eauto.
    - unfold on_idle in H. apply same_idle in H. by apply H.
    - injection H as <-. destruct (_ && _); done.
  Qed.
  Lemma to_ack_app a b : to_ack (a ++ b) = to_ack a ++ to_ack b.
  Proof. induction a as [|[] a IH]; cbn; try done. rewrite IH, app_assoc. done. Qed.
  Theorem acks_hist t m b l s : rel_hist (rel_new t m b) l s -> Forall no_acks l -> plain s /\ owed s = to_ack l.
  Proof.
    remember (rel_new t m b) as s0 eqn:E0. induction 1 as [s|s0 l s e s' H IH Hok Hs]; intros Hf.
    - subst s. split; [|done]. intros tx u. cbn. rewrite lookup_empty. done.
    - apply Forall_app in Hf as [Hf1 Hf2]. apply Forall_cons_1 in Hf2 as [Hf2 _]. destruct (IH E0 Hf1) as [P O]. destruct (same_step s e s' Hf2 Hs P) as [P' O'].
      split; [done|]. rewrite O', O, to_ack_app. done.
  Qed.
End dup.
