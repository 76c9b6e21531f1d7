(** Fragments fit the MTU. *)
From stdpp Require Import gmap.
From Verif Require Import Lib Lp_Model Lp_Spec Lp_Frag Rel_Model Ls_Model Ls_Spec Ls_Proof.

(** ** what LpReliability does not change *)
Definition fr (s s' : rel) : Prop := r_mtu s' = r_mtu s /\ r_enabled s' = r_enabled s /\ exists L, r_log s' = L ++ r_log s.
Lemma fr_refl s : fr s s.
Proof. split; [done|]. split; [done|]. by exists []. Qed.
Lemma fr_trans s1 s2 s3 : fr s1 s2 -> fr s2 s3 -> fr s1 s3.
Proof. intros (A1 & A2 & L1 & A3) (B1 & B2 & L2 & B3). split; [congruence|]. split; [congruence|]. exists (L2 ++ L1). by rewrite B3, A3, app_assoc. Qed.
Lemma fr_same s s' : r_mtu s' = r_mtu s -> r_enabled s' = r_enabled s -> r_log s' = r_log s -> fr s s'.
Proof. intros ? ? E. split; [done|]. split; [done|]. by exists []. Qed.
Lemma fr_log s s' o : r_mtu s' = r_mtu s -> r_enabled s' = r_enabled s -> r_log s' = o :: r_log s -> fr s s'.
Proof. intros ? ? E. split; [done|]. split; [done|]. by exists [o]. Qed.
Ltac fr_now := first [by apply fr_refl | by apply fr_same | by eapply fr_log].

Lemma delete_unacked_fr tx s s' : delete_unacked tx s = Some s' -> fr s s'.
Proof. unfold delete_unacked. intros H. repeat (case_match; simplify_eq); fr_now. Qed.
Lemma delete_each_fr l : forall s s', delete_each l s = Some s' -> fr s s'.
Proof.
  induction l as [|x l IH]; intros s s' H; cbn in H; [simplify_eq; fr_now|]. destruct (delete_unacked x s) as [s1|] eqn:E; [|done].
  eapply fr_trans; [by eapply delete_unacked_fr|by apply IH].
Qed.
Lemma assign_tx_fr s s' tx : assign_tx s = Some (s', tx) -> fr s s'.
Proof. unfold assign_tx. intros H. repeat (case_match; simplify_eq); fr_now. Qed.
Lemma send_lp_fr p s s' : send_lp p s = Some s' -> fr s s'.
Proof. unfold send_lp. intros H. repeat (case_match; simplify_eq); fr_now. Qed.
Section frame.
  Variables (max_retx : N) (idle_period : Z) (thr : N) (rto : list Z -> Z).
  Lemma on_lost_fr tx s s' r : on_lost max_retx rto false tx s = Some (s', r) -> fr s s'.
  Proof.
    unfold on_lost. intros H. destruct (r_unacked s !! tx) as [u|]; [|done]. destruct (r_nets s !! ua_net u) as [np|]; [|done]. destruct (lp_seq (ua_pkt u)) as [sq|]; [|done].
    destruct (max_retx <=? ua_retx u)%N.
    - destruct (delete_each _ s) as [s1|] eqn:E1; [|done]. apply delete_each_fr in E1. destruct (delete_unacked _ _) as [s4|] eqn:E4; [|done]. apply delete_unacked_fr in E4. injection H as <- _.
      eapply fr_trans; [exact E1|]. eapply fr_trans; [|eapply fr_trans; [exact E4|fr_now]].
      destruct (np_interest np); [|fr_now]. split; [done|]. split; [done|]. by exists [ODropped (np_pkt np); OFate (ua_net u) Exhausted].
    - destruct (assign_tx s) as [[s1 new]|] eqn:E1; [|done]. apply assign_tx_fr in E1. destruct (r_unacked s1 !! new); [done|]. destruct (list_find _ _) as [[i j]|]; [|done].
      destruct (delete_unacked _ _) as [s4|] eqn:E4; [|done]. apply delete_unacked_fr in E4. destruct (send_lp _ _) as [s5|] eqn:E5; [|done]. apply send_lp_fr in E5. injection H as <- _.
      eapply fr_trans; [exact E1|]. eapply fr_trans; [|eapply fr_trans; [exact E4|]]; [fr_now|]. eapply fr_trans; [|exact E5]. fr_now.
  Qed.
  Lemma lose_each_fr l : forall r s s', lose_each max_retx rto false l r s = Some s' -> fr s s'.
  Proof.
    induction l as [|x l IH]; intros r s s' H; cbn in H; [simplify_eq; fr_now|]. destruct (decide _); [by eapply IH|].
    destruct (on_lost _ _ _ x s) as [[s1 r1]|] eqn:E; [|done]. eapply fr_trans; [by eapply on_lost_fr|by eapply IH].
  Qed.
  Lemma on_acked_fr tx s s' : on_acked tx s = Some s' -> fr s s'.
  Proof.
    unfold on_acked. intros H. destruct (r_unacked s !! tx) as [u|]; [|done]. destruct (r_nets s !! ua_net u) as [np|]; [|done]. destruct (list_find _ _) as [[i j]|]; [|done]. destruct (last _); [|done].
    apply delete_unacked_fr in H. eapply fr_trans; [|exact H]. case_match; fr_now.
  Qed.
  Lemma on_acks_fr l : forall s s', on_acks max_retx thr rto false l s = Some s' -> fr s s'.
  Proof.
    induction l as [|x l IH]; intros s s' H; cbn in H; [simplify_eq; fr_now|]. destruct (on_ack _ _ _ _ x s) as [s1|] eqn:E; [|done]. eapply fr_trans; [|by apply IH].
    unfold on_ack in E. destruct (r_unacked s !! x) as [u|]; [|simplify_eq; fr_now]. set (s0 := if (_ =? _)%N then _ else s) in E. assert (F : fr s (log (OAck x) s0)) by (unfold s0; destruct (_ =? _)%N; fr_now). clearbody s0.
    unfold find_lost in E. destruct (r_first _); [|done]. destruct (on_acked x _) as [s3|] eqn:E3; [|done]. apply on_acked_fr in E3. apply lose_each_fr in E.
    eapply fr_trans; [exact F|]. eapply fr_trans; [|eapply fr_trans; [exact E3|exact E]]. fr_now.
  Qed.
  Lemma incoming_fr p s s' b : process_incoming max_retx idle_period thr rto false p s = Some (s', b) -> fr s s'.
  Proof.
    unfold process_incoming. destruct (negb _); [done|]. destruct (on_acks _ _ _ _ _ s) as [s1|] eqn:E; [|done]. apply on_acks_fr in E. intros H. eapply fr_trans; [exact E|].
    destruct (lp_frag p); [|simplify_eq; fr_now]. destruct (lp_txseq p); [|simplify_eq; fr_now]. destruct (lp_seq p).
    - destruct (purge _ _ _ _). cbn [r_idle set_recent set_rel_acks set_rx] in H. destruct (r_idle s1); injection H as <- _; fr_now.
    - cbn [r_idle set_rel_acks] in H. destruct (r_idle s1); injection H as <- _; fr_now.
  Qed.
  Lemma idle_loop_fr n : forall s s', idle_loop n s = Some s' -> fr s s'.
  Proof.
    induction n as [|n IH]; intros s s' H; cbn in H; destruct (r_acks s); simplify_eq; try fr_now. destruct (send_lp lp_empty s) as [s1|] eqn:E; [|done]. eapply fr_trans; [by eapply send_lp_fr|by apply IH].
  Qed.
  Lemma send_each_fr l : forall s s', send_each l s = Some s' -> fr s s'.
  Proof. induction l as [|x l IH]; intros s s' H; cbn in H; [simplify_eq; fr_now|]. destruct (send_lp x s) as [s1|] eqn:E; [|done]. eapply fr_trans; [by eapply send_lp_fr|by apply IH]. Qed.
  Lemma out_frag_fr id f s s' f' : out_frag rto id f s = Some (s', f') -> (fr s s' /\ r_acks s' = r_acks s) /\ exists tx, f' = set_txseq (Some tx) f.
  Proof.
    unfold out_frag. intros H. destruct (lp_seq f) as [sq|]; [|done]. destruct (assign_tx s) as [[s1 tx]|] eqn:E; [|done]. assert (Ha : r_acks s1 = r_acks s) by (unfold assign_tx in E; repeat (case_match; simplify_eq); done). apply assign_tx_fr in E.
    match type of H with context [match r_nets ?x !! id with _ => _ end] => set (s3 := x) in H end.
    assert (F : fr s1 s3 /\ r_acks s3 = r_acks s1) by (unfold s3; destruct (decide _); split; try done; fr_now). clearbody s3. destruct F as [F Fa]. destruct (r_nets s3 !! id) as [np|]; [|done]. injection H as <- <-.
    split; [|eauto]. split; [|cbn; congruence]. eapply fr_trans; [exact E|]. eapply fr_trans; [exact F|]. fr_now.
  Qed.
  Lemma out_frags_fr id l : forall s s' l', out_frags rto id l s = Some (s', l') -> (fr s s' /\ r_acks s' = r_acks s) /\ Forall2 (fun f f' => exists tx, f' = set_txseq (Some tx) f) l l'.
  Proof.
    induction l as [|f l IH]; intros s s' l' H; cbn in H; [simplify_eq; split; [split; [fr_now|done]|by constructor]|]. destruct (out_frag _ _ f s) as [[s1 f1]|] eqn:E; [|done]. destruct (out_frags _ _ l s1) as [[s2 l2]|] eqn:E2; [|done]. injection H as <- <-.
    destruct (out_frag_fr _ _ _ _ _ E) as [[F1 G1] ?]. destruct (IH _ _ _ E2) as [[F2 G2] ?]. split; [split; [by eapply fr_trans|congruence]|]. by constructor.
  Qed.
  Lemma rel_step_fr s e s' : rel_step max_retx idle_period thr rto false s e = Some s' -> (forall d m b, e <> RlEnv d m b) -> fr s s'.
  Proof.
    destruct e as [frags pkt i|p|tx| |d m b]; cbn; intros H Hn; [..|by destruct (Hn d m b)].
    - unfold handle_outgoing in H. destruct (r_enabled s); [|done]. destruct (out_frags _ _ _ _) as [[s1 l]|] eqn:E; [|done]. apply out_frags_fr in E as [[E _] _]. apply send_each_fr in H. eapply fr_trans; [|exact H]. eapply fr_trans; [|exact E]. fr_now.
    - destruct (process_incoming _ _ _ _ _ _ _) as [[s1 b]|] eqn:E; [|done]. injection H as <-. by eapply incoming_fr.
    - destruct (on_lost _ _ _ _ _) as [[s1 b]|] eqn:E; [|done]. injection H as <-. by eapply on_lost_fr.
    - unfold on_idle in H. apply idle_loop_fr in H. eapply fr_trans; [|exact H]. fr_now.
  Qed.
End frame.

(** ** sizes *)
Lemma hdr_txseq tx p : (hdr_size (set_txseq (Some tx) p) <= hdr_size p + 12)%N.
Proof. unfold hdr_size. simpl. change (tlv_size T_TXSEQ 8) with 12%N. lia. Qed.
Lemma hdr_mark p : (hdr_size (set_mark (Some 1%N) p) <= hdr_size p + 5)%N.
Proof. unfold hdr_size. simpl. change (tlv_size T_MARK (nni_size 1)) with 5%N. lia. Qed.
Lemma hdr_seq sq p : (lp_seq p = None -> hdr_size p <= hdr_size (set_seq (Some sq) p))%N.
Proof. intros H. unfold hdr_size. simpl. rewrite H. simpl. lia. Qed.
Lemma hdr_acks x p : hdr_size (set_acks (lp_acks p ++ x) p) = (hdr_size p + 12 * N.of_nat (length x))%N.
Proof. unfold hdr_size. simpl. change (tlv_size T_ACK 8) with 12%N. rewrite app_length. lia. Qed.
Lemma take_acks_room acks : forall room x y, take_acks room acks = (x, y) -> x <> [] -> (12 * Z.of_nat (length x) <= room)%Z.
Proof.
  induction acks as [|a acks IH]; intros room x y H Hx; cbn in H; [by simplify_eq|]. destruct (Z.ltb_spec room ACK_SIZE); [by simplify_eq|].
  unfold ACK_SIZE in *. destruct (take_acks (room - 12) acks) as [x' y'] eqn:E. injection H as <- <-. destruct (decide (x' = [])) as [->|Hn]; [cbn; lia|]. specialize (IH _ _ _ E Hn). cbn [length]. lia.
Qed.
(** the packet with its Acks: it fits, if its size was not 253 or 254 *)
Lemma piggyback_size mtu p acks p' y :
  (mtu <= 65535)%Z -> (0 <= mtu)%Z -> piggyback mtu p acks = Some (p', y) -> (Z.of_N (wire_size p) <= mtu)%Z ->
  acks = [] \/ (wire_size p <> 253 /\ wire_size p <> 254)%N -> (Z.of_N (wire_size p') <= mtu)%Z.
Proof.
  intros Hm1 Hm0 H Hs Ha. unfold piggyback in H. destruct (lp_bare p) eqn:Hb; [done|]. destruct (take_acks _ _) as [x y'] eqn:E. injection H as <- <-.
  destruct (decide (x = [])) as [->|Hx]; [rewrite app_nil_r; by destruct p|]. destruct Ha as [->|Ha]; [cbn in E; by simplify_eq|].
  pose proof (take_acks_room _ _ _ _ E Hx) as Hr. destruct (Z.eqb_spec mtu MTU_UNLIMITED) as [Em|_]; [unfold MTU_UNLIMITED in Em; lia|].
  assert (Hk : (0 < length x)%nat) by (destruct x; [done|cbn; lia]). change (Z.of_N (var_size 8800)) with 3%Z in Hr.
  set (k := length x) in *.
  assert (exists L, wire_size p = (1 + var_size L + L)%N /\ wire_size (set_acks (lp_acks p ++ x) p) = (1 + var_size (L + 12 * N.of_nat k) + (L + 12 * N.of_nat k))%N) as (L & E1 & E2).
  { unfold wire_size. rewrite !hdr_acks. unfold lp_bare in Hb. destruct (lp_frag p) as [d|] eqn:Ef; cbn [lp_frag set_acks]; rewrite Ef.
    - destruct (N.eqb_spec (hdr_size p) 0); [done|]. destruct (N.eqb_spec (hdr_size p + 12 * N.of_nat (length x)) 0); [lia|]. exists (hdr_size p + tlv_size T_FRAGMENT (len d))%N. fold k.
      replace (hdr_size p + tlv_size T_FRAGMENT (len d) + 12 * N.of_nat k)%N with (hdr_size p + 12 * N.of_nat k + tlv_size T_FRAGMENT (len d))%N by lia. split; reflexivity.
    - exists (hdr_size p). split; reflexivity. }
  rewrite E2. rewrite E1 in *. clear E1 E2. clearbody k. clear x E Hx Hb. revert Hs Hr Ha. unfold var_size.
  destruct (N.ltb_spec L 253); [|destruct (N.leb_spec L 65535); [|destruct (N.leb_spec L 4294967295)]];
  (destruct (N.ltb_spec (L + 12 * N.of_nat k) 253); [|destruct (N.leb_spec (L + 12 * N.of_nat k) 65535); [|destruct (N.leb_spec (L + 12 * N.of_nat k) 4294967295)]]);
  match goal with |- context [(?a <? 253)%N] => destruct (N.ltb_spec a 253); [|destruct (N.leb_spec a 65535); [|destruct (N.leb_spec a 4294967295)]] end; intros; lia.
Qed.
Lemma within_add mtu p d extra : lp_frag p = Some d -> (Z.of_N (hdr_size p + len d + 20) + extra <= mtu)%Z -> (0 <= extra)%Z -> (Z.of_N (wire_size p) <= mtu)%Z.
Proof. intros Hf H ?. pose proof (wire_le p d Hf). lia. Qed.

(** ** what LpReliability sends for a network packet *)
Lemma sends_app l1 l2 : sends (l1 ++ l2) = sends l1 ++ sends l2.
Proof. unfold sends. apply omap_app. Qed.
Lemma sends_rev_nil l : sends l = [] -> sends (rev l) = [].
Proof.
  induction l as [|o l IH]; [done|]. cbn [rev]. rewrite sends_app. change (o :: l) with ([o] ++ l). rewrite sends_app. intros [H1 H2]%app_eq_nil. rewrite (IH H2), H1. done.
Qed.
Lemma sends_osend l : sends (OSend <$> l) = l.
Proof. induction l as [|p l IH]; [done|]. cbn. unfold sends in IH. by rewrite IH. Qed.
Lemma out_frags_log rto id l : forall s s' l', out_frags rto id l s = Some (s', l') -> exists L, r_log s' = L ++ r_log s /\ sends L = [].
Proof.
  induction l as [|f l IH]; intros s s' l' H; cbn in H; [simplify_eq; by exists []|]. destruct (out_frag _ _ f s) as [[s1 f1]|] eqn:E; [|done]. destruct (out_frags _ _ l s1) as [[s2 l2]|] eqn:E2; [|done]. injection H as <- <-.
  destruct (IH _ _ _ E2) as (L & EL & HL). unfold out_frag in E. destruct (lp_seq f) as [sq|]; [|done]. destruct (assign_tx s) as [[s0 tx]|] eqn:Ea; [|done].
  assert (Ha : r_log s0 = r_log s) by (unfold assign_tx in Ea; repeat (case_match; simplify_eq); done).
  match type of E with context [match r_nets ?x !! id with _ => _ end] => set (s3 := x) in E end.
  assert (F : r_log s3 = r_log s0) by (unfold s3; destruct (decide _); done). clearbody s3. destruct (r_nets s3 !! id); [|done]. injection E as <- _. cbn in EL.
  exists (L ++ [OTx id sq tx false]). rewrite EL, F, Ha, <- app_assoc. split; [done|]. rewrite sends_app, HL. done.
Qed.
Definition attached (mtu : Z) (p p' : lp) (acks0 : list N) : Prop := exists acks y, piggyback mtu p acks = Some (p', y) /\ (acks0 = [] -> acks = []).
Lemma send_each_attached l : forall s s', r_enabled s = true -> send_each l s = Some s' ->
  exists snd, r_log s' = rev (OSend <$> snd) ++ r_log s /\ Forall2 (fun p p' => attached (r_mtu s) p p' (r_acks s)) l snd.
Proof.
  induction l as [|p l IH]; intros s s' He H; cbn in H; [simplify_eq; exists []; split; [done|by constructor]|].
  unfold send_lp in H. rewrite He in H. destruct (piggyback _ _ _) as [[p' acks]|] eqn:E; [|done].
  assert (Hn : r_acks s = [] -> acks = []).
  { intros En. unfold piggyback in E. destruct (lp_bare p); [done|]. rewrite En in E. cbn in E. by simplify_eq. }
  destruct (IH (log (OSend p') (set_rel_acks acks s)) s' He H) as (snd & EL & F). cbn in EL, F. exists (p' :: snd). split; [cbn [fmap list_fmap rev]; by rewrite EL, <- app_assoc|].
  constructor; [exists (r_acks s), acks; done|]. eapply Forall2_impl; [exact F|]. intros x y (a & b & H1 & H2). exists a, b. split; [done|]. auto.
Qed.
Lemma out_attached max_retx idle_period thr rto s frags pkt i r :
  r_enabled s = true -> rel_step max_retx idle_period thr rto false s (RlOut frags pkt i) = Some r ->
  Forall2 (fun f p' => exists tx, attached (r_mtu s) (set_txseq (Some tx) f) p' (r_acks s)) frags (sends_since s r).
Proof.
  intros He H. cbn in H. unfold handle_outgoing in H. rewrite He in H. destruct (out_frags _ _ _ _) as [[s1 l]|] eqn:E; [|done].
  destruct (out_frags_log _ _ _ _ _ _ E) as (L & EL & HL). destruct (out_frags_fr _ _ _ _ _ _ E) as [[(F1 & F2 & _) F3] F4]. cbn in *.
  destruct (send_each_attached l s1 r) as (snd & ES & FS); [congruence|done|]. assert (Es : sends_since s r = snd).
  { unfold sends_since. rewrite ES, EL, app_assoc, app_length. replace (_ + _ - _)%nat with (length (rev (OSend <$> snd) ++ L)) by lia. rewrite take_app, rev_app_distr, sends_app, (sends_rev_nil L HL), rev_involutive, sends_osend. done. }
  rewrite Es. rewrite F1, F3 in FS. clear -F4 FS. revert snd FS. induction F4 as [|f f' l l' (tx & ->) F IH]; intros snd FS; inversion FS; subst; constructor; eauto.
Qed.

(** ** the link service *)
Section fit.
  Variable root : Z -> N -> Z.
  Variable type_of : list N -> N.
  Variables interest_ok data_ok nack_ok cache_ok pa_ok : list N -> bool.
  Variable block : list N -> option (list N).
  Variables (max_retx : N) (idle_period : Z) (thr : N) (rto : list Z -> Z).
  Notation finish := (finish root).
  Notation finish_each := (finish_each root).
  Notation ls_step := (ls_step root type_of interest_ok data_ok nack_ok cache_ok pa_ok block max_retx idle_period thr rto).
  Notation ls_hist := (ls_hist root type_of interest_ok data_ok nack_ok cache_ok pa_ok block max_retx idle_period thr rto).
  Definition tied (s : ls) : Prop := r_mtu (l_rel s) = effective_mtu (l_o s) (l_tmtu s) /\ r_enabled (l_rel s) = o_rel (l_o s).

  Lemma finish_rel q p s : l_rel (finish q p s) = l_rel s /\ env (finish q p s) = env s.
  Proof.
    split; [|apply (finish_out root q p s)]. unfold Ls_Model.finish, check_congestion. destruct (o_mark _); [|destruct (_ && _); done].
    destruct (q <? 0)%Z; [destruct (_ && _); done|]. destruct (_ <? q)%Z; destruct (l_next s) as [t|]; [destruct (t <=? _)%Z|..]; cbn; destruct (_ && _); done.
  Qed.
  Lemma finish_each_rel l : forall q s, l_rel (finish_each q l s) = l_rel s /\ env (finish_each q l s) = env s.
  Proof. induction l as [|p l IH]; intros q s; cbn; [done|]. destruct (IH (fun i => q (S i)) (finish (q 0%nat) p s)) as [-> ->]. apply finish_rel. Qed.
  Lemma through_tied q r s : tied s -> fr (l_rel s) r -> tied (through root q r s).
  Proof.
    intros [T1 T2] (F1 & F2 & _). unfold Ls_Model.through. destruct (finish_each_rel (sends_since (l_rel s) r) q (set_lrel r s)) as [E1 E2]. unfold env in E2. cbn in E1, E2. injection E2 as E2 E3. unfold tied. rewrite E1, E2, E3. split; congruence.
  Qed.
  Lemma step_tied q s e s' : tied s -> ls_step q s e = Some s' -> tied s'.
  Proof.
    intros T. assert (Hg : forall s1, tied s1 -> forall r, tied (set_lra r s1)) by done.
    assert (Hdel : forall p ep s1 s2, tied s1 -> match lp_frag p with
          | None => Some s1
          | Some _ =>
              if (match lp_idx p, lp_cnt p with None, None => false | _, _ => true end) && negb (o_reasm (l_o s1)) then Some s1
              else match receive_fragment block ep p (l_ra s1) with
                   | None => None
                   | Some (r, RNone) => Some (set_lra r s1)
                   | Some (r, RPacket net first) => Some (pass (decode type_of interest_ok data_ok nack_ok cache_ok pa_ok (l_o s1) net first) (set_lra r s1))
                   | Some (r, RError) => Some (set_k (k_lp_invalid1 (l_k s1)) (set_lra r s1))
                   end
          end = Some s2 -> tied s2).
    { intros p ep s1 s2 T1 H. destruct (lp_frag p); [|by injection H as <-]. destruct (_ && _); [by injection H as <-|]. destruct (receive_fragment _ _ _ _) as [[r [|net first|]]|]; [..|done]; injection H as <-; try done. unfold pass. by destruct (decode _ _ _ _ _ _ _ _ _). }
    destruct e as [n|ep x|tx| |key|o m|d]; cbn [Ls_Model.ls_step].
    - unfold send_packet, send_net. destruct (fragment_mtu _ _) as [mtu|]; [|done].
      destruct (if _ && _ then _ else _) as [[l|]|]; [|intros [= <-]; done|done].
      assert (Hs : forall l0 s1, tied s1 -> tied (finish_each q l0 s1)).
      { intros l0 s1 [T1 T2]. destruct (finish_each_rel l0 q s1) as [E1 E2]. unfold env in E2. injection E2 as E2 E3. unfold tied. rewrite E1, E2, E3. done. }
      destruct l as [|f [|f2 l]]; [done| |].
      + destruct (lp_idx f); [done|]. destruct (lp_cnt f); [done|]. destruct (o_rel _); [|intros [= <-]; by apply (Hs [f])].
        destruct (assign_sequences _ _) as [last l1]. destruct (rel_step _ _ _ _ _ _ _) as [r|] eqn:E; [|done]. intros [= <-]. apply through_tied; [done|]. by eapply rel_step_fr.
      + destruct (assign_sequences _ _) as [last l1]. destruct (o_rel _); [|intros [= <-]; by apply Hs].
        destruct (rel_step _ _ _ _ _ _ _) as [r|] eqn:E; [|done]. intros [= <-]. apply through_tied; [done|]. by eapply rel_step_fr.
    - unfold receive. destruct x as [p|]; [|intros [= <-]; done]. destruct (o_rel (l_o s)).
      + destruct (process_incoming _ _ _ _ _ _ _) as [[r [|]]|] eqn:E; [..|done]; apply incoming_fr in E.
        * apply Hdel. by apply through_tied.
        * intros [= <-]. pose proof (through_tied q r s T E) as T'. exact T'.
      + by apply Hdel.
    - destruct (rel_step _ _ _ _ _ _ _) as [r|] eqn:E; [|done]. intros [= <-]. apply through_tied; [done|]. by eapply rel_step_fr.
    - destruct (rel_step _ _ _ _ _ _ _) as [r|] eqn:E; [|done]. intros [= <-]. apply through_tied; [done|]. by eapply rel_step_fr.
    - intros [= <-]. done.
    - intros [= <-]. by split.
    - intros [= <-]. by split.
  Qed.
  Lemma hist_tied s0 l s : ls_hist s0 l s -> tied s0 -> tied s.
  Proof. intros H H0. induction H as [|l s e q s' H IH Hok Hst]; [done|]. by eapply step_tied. Qed.

  (** packets that fit, marked or not, are all handed over *)
  Lemma finish_each_all mtu l : forall q s, effective_mtu (l_o s) (l_tmtu s) = mtu ->
    (forall p, p ∈ l -> within mtu p /\ (o_mark (l_o s) = true -> within mtu (set_mark (Some 1%N) p))) ->
    k_over (l_k (finish_each q l s)) = k_over (l_k s) /\
    exists new, l_out (finish_each q l s) = rev new ++ l_out s /\ Forall2 (fun p h => h = Handed mtu p \/ h = Handed mtu (set_mark (Some 1%N) p)) l new.
  Proof.
    induction l as [|p l IH]; intros q s Em Hp; cbn [Ls_Model.finish_each]; [split; [done|]; exists []; split; [done|by constructor]|].
    destruct (finish_out root (q 0%nat) p s) as [Ee Hf]. cbn zeta in Hf. rewrite Em in Hf. assert (Eo : l_o (finish (q 0%nat) p s) = l_o s /\ l_tmtu (finish (q 0%nat) p s) = l_tmtu s) by (unfold env in Ee; split; congruence). destruct Eo as [Eo Et].
    destruct (IH (fun i => q (S i)) (finish (q 0%nat) p s)) as (K & new & EN & FN); [by rewrite Eo, Et|rewrite Eo; intros p' Hp'; apply Hp; by right|].
    assert (Hc : o_mark (l_o s) = true -> fst (check_congestion root (q 0%nat) p s) = p \/ fst (check_congestion root (q 0%nat) p s) = set_mark (Some 1%N) p).
    { intros _. unfold check_congestion. destruct (_ <? 0)%Z; [by left|]. destruct (_ <? _)%Z; destruct (l_next s) as [t|]; [destruct (t <=? _)%Z|..]; cbn; auto. }
    destruct (Hp p) as [H1 H2]; [left|].
    destruct Hf as [(Hw & Hf & Hk)|(Hw & _)].
    - split; [congruence|]. destruct (o_mark (l_o s)) eqn:Eo'.
      + exists (Handed mtu (fst (check_congestion root (q 0%nat) p s)) :: new). split; [cbn; rewrite EN, Hf, <- app_assoc; done|]. constructor; [|done]. destruct (Hc eq_refl) as [->| ->]; auto.
      + exists (Handed mtu p :: new). split; [cbn; rewrite EN, Hf, <- app_assoc; done|]. constructor; [by left|done].
    - exfalso. apply Hw. destruct (o_mark (l_o s)); [|done]. destruct (Hc eq_refl) as [->| ->]; auto.
  Qed.
End fit.
