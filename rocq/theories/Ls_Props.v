(** The link service: C45, C46, C47. *)
From stdpp Require Import gmap.
From Verif Require Import Lib Lp_Model Lp_Spec Lp_Frag Rel_Model Ls_Model Ls_Spec Ls_Proof Ls_Fit.

Section props.
  Variable root : Z -> N -> Z.
  Variable type_of : list N -> N.
  Variables interest_ok data_ok nack_ok cache_ok pa_ok : list N -> bool.
  Variable block : list N -> option (list N).
  Variables (max_retx : N) (idle_period : Z) (thr : N) (rto : list Z -> Z).
  Notation ls_step := (ls_step root type_of interest_ok data_ok nack_ok cache_ok pa_ok block max_retx idle_period thr rto).
  Notation ls_hist := (ls_hist root type_of interest_ok data_ok nack_ok cache_ok pa_ok block max_retx idle_period thr rto).
  Notation ls_reached := (ls_reached root type_of interest_ok data_ok nack_ok cache_ok pa_ok block max_retx idle_period thr rto).

  (** * C45 *)
  (** No packet larger than the effective MTU is given to the transport: not ever, *)
  Theorem C45_limit s h : ls_reached s -> h ∈ l_out s -> within (h_mtu h) (h_pkt h).
  Proof. intros (o & m & t & rm & rt & l & H) Hh. eapply hist_within; [exact H| |exact Hh]. by intros ? ?%elem_of_nil. Qed.
  (** and the MTU is the effective MTU when it was given *)
  Theorem C45_mtu q s e s' : ls_step q s e = Some s' ->
    exists new, l_out s' = new ++ l_out s /\ forall h, h ∈ new -> h_mtu h = effective_mtu (l_o s) (l_tmtu s).
  Proof. intros (new & -> & H)%step_out. exists new. split; [done|]. intros h Hh. by apply H. Qed.
  (** which is the transport's, or the smaller one that it was overridden to; overriding never makes a limited MTU unlimited or smaller than 64 *)
  Theorem C45_effective o tmtu mtu : can_override tmtu mtu = true -> o_override o = mtu ->
    (0 < tmtu -> 0 < effective_mtu o tmtu <= tmtu /\ (64 <= tmtu -> 64 <= effective_mtu o tmtu) /\ effective_mtu o tmtu <= mtu)%Z.
  Proof. unfold can_override, effective_mtu, MIN_MTU. intros H -> Ht. destruct (_ =? _)%Z; [done|]. apply Z.leb_le in H. lia. Qed.
  (** one packet is given to the transport, or dropped and counted if it is too large *)
  Theorem C45_one q p s : exists p1, (p1 = p \/ o_mark (l_o s) = true /\ p1 = set_mark (Some 1%N) p) /\
    let mtu := effective_mtu (l_o s) (l_tmtu s) in
    (within mtu p1 /\ l_out (finish root q p s) = Handed mtu p1 :: l_out s /\ k_over (l_k (finish root q p s)) = k_over (l_k s)) \/
    (~ within mtu p1 /\ l_out (finish root q p s) = l_out s /\ k_over (l_k (finish root q p s)) = (k_over (l_k s) + 1)%N).
  Proof.
    destruct (finish_out root q p s) as [_ H]. cbn zeta in H. exists (if o_mark (l_o s) then fst (check_congestion root q p s) else p). split; [|exact H].
    destruct (o_mark _); [|by left]. unfold check_congestion. destruct (_ <? 0)%Z; [by left|]. destruct (_ <? _)%Z; destruct (l_next s) as [t|]; [destruct (t <=? _)%Z|..]; cbn; auto.
  Qed.

  Lemma assigned l : forall last last' l1, assign_sequences last l = (last', l1) -> Forall2 (fun f f' => exists sq, f' = set_seq (Some sq) f) l l1.
  Proof.
    induction l as [|p l IH]; intros last last' l1 H; cbn in H; [simplify_eq; by constructor|]. destruct (assign_sequences (seq_next last) l) as [x r] eqn:E. injection H as <- <-. constructor; eauto.
  Qed.
  Definition payload (l : list handed) : list N := concat (omap (fun h => lp_frag (h_pkt h)) l).
  Lemma payload_eq pieces new : map (fun h => lp_frag (h_pkt h)) new = map Some pieces -> payload new = concat pieces.
  Proof. unfold payload. revert pieces. induction new as [|h new IH]; intros [|x pieces] H; cbn in *; try done. injection H as H1 H2. rewrite H1. cbn. f_equal. by apply IH. Qed.
  (** No fragment is dropped for its size, and the fragments given to the transport are the whole network packet;
      if there is no reliability, or no Ack waits, or else if there is no marking and no fragment has 253 or 254 octets.
      What is missing are the other cases: there it is false, see below. *)
  Theorem C45_fits_partial q s n s' :
    ls_reached s -> o_frag (l_o s) = true -> n_wire n <> [] ->
    (24 <= effective_mtu (l_o s) (l_tmtu s) <= 65535)%Z ->
    ls_step q s (LsSend n) = Some s' ->
    o_rel (l_o s) = false \/ r_acks (l_rel s) = [] \/
      (o_mark (l_o s) = false /\ forall frags f sq tx, fragment_packet (o_maxfrag (l_o s)) (encode (l_o s) n) (Z.to_N (effective_mtu (l_o s) (l_tmtu s) - RESERVED_HEADER_SPACE)) = Some (Some frags) -> f ∈ frags ->
         (wire_size (set_txseq (Some tx) (set_seq (Some sq) f)) <> 253 /\ wire_size (set_txseq (Some tx) (set_seq (Some sq) f)) <> 254)%N) ->
    (l_out s' = l_out s /\ l_k s' = k_frag_err1 (l_k s)) \/
    (k_over (l_k s') = k_over (l_k s) /\ exists new, l_out s' = rev new ++ l_out s /\ payload new = n_wire n).
  Proof.
    intros (o0 & m0 & t0 & rm & rt & l0 & Hh) Ho Hne Hm Hst Hcond.
    pose proof (hist_tied _ _ _ _ _ _ _ _ _ _ _ _ _ _ _ Hh (conj eq_refl eq_refl)) as [Tm Te]. clear Hh.
    cbn [Ls_Model.ls_step] in Hst. unfold send_packet, send_net in Hst. set (o := l_o s) in *. set (mtu := effective_mtu o (l_tmtu s)) in *. set (p := encode o n) in *.
    assert (Hfm : exists m', fragment_mtu o mtu = Some m' /\ (0 <= m')%Z /\ m' = (mtu - (if o_rel o then 12 else 0) - (if o_mark o then 12 else 0))%Z).
    { unfold fragment_mtu, RESERVED_HEADER_SPACE, CONGESTION_MARK_SIZE, MTU_UNLIMITED. destruct (Z.eqb_spec mtu (-1)); [lia|]. rewrite andb_true_r.
      destruct (o_rel o); [destruct (Z.eqb_spec (mtu - 12) (-1)); [lia|]|destruct (Z.eqb_spec mtu (-1)); [lia|]]; rewrite andb_true_r; destruct (o_mark o).
      all: match goal with |- context [(?a =? -1)%Z || _] => destruct (Z.eqb_spec a (-1)); [lia|]; destruct (Z.leb_spec 0 a); [|lia] end; eexists; (split; [reflexivity|]); lia. }
    destruct Hfm as (m' & Efm & Hm0 & Em'). rewrite Efm, Ho in Hst. assert (Hu : (m' =? MTU_UNLIMITED)%Z = false) by (unfold MTU_UNLIMITED; apply Z.eqb_neq; lia). rewrite Hu in Hst. cbn [negb andb] in Hst.
    destruct (fragment_packet (o_maxfrag o) p (Z.to_N m')) as [[l|]|] eqn:El; [|left; by simplify_eq|done]. right.
    assert (Hnet : lp_frag p = Some (n_wire n)) by done. assert (Hi : lp_idx p = None) by done. assert (Hc : lp_cnt p = None) by done.
    assert (Hroom : forall f sq, f ∈ l -> exists d, lp_frag f = Some d /\ (Z.of_N (hdr_size (set_seq (Some sq) f) + len d + 20) <= m')%Z).
    { intros f sq Hf. destruct (fragment_room _ _ _ _ _ f sq Hnet Hne Hi Hc El Hf) as (d & ? & ?). exists d. split; [done|]. lia. }
    assert (Hpay : exists pieces, map lp_frag l = map Some pieces /\ concat pieces = n_wire n).
    { destruct (fragment_cases (o_maxfrag o) p (n_wire n) (Z.to_N m') Hnet Hne Hi Hc) as [[_ E']|(_ & [[_ E']|(_ & [[_ E']|(_ & l' & E' & F & _)])])]; rewrite E' in El; try done.
      - injection El as <-. exists [n_wire n]. split; [done|]. cbn. by rewrite app_nil_r.
      - injection El as ->. destruct (filled_fragments _ _ _ _ _ F) as [_ _ _ (ps & ? & ? & _)]. eauto. }
    destruct Hpay as (pieces & Hpc & Hcat).
    (* what is given to finish_each *)
    assert (G : forall l2 s1, Forall2 (fun f f' => lp_frag f' = lp_frag f) l l2 -> l_o s1 = o -> l_tmtu s1 = l_tmtu s -> l_out s1 = l_out s -> l_k s1 = l_k s ->
      (forall f', f' ∈ l2 -> within mtu f' /\ (o_mark o = true -> within mtu (set_mark (Some 1%N) f'))) ->
      k_over (l_k (finish_each root q l2 s1)) = k_over (l_k s) /\ exists new, l_out (finish_each root q l2 s1) = rev new ++ l_out s /\ payload new = n_wire n).
    { intros l2 s1 F2 Eo Et Eou Ek Hw. destruct (finish_each_all root mtu l2 q s1) as (K & new & EN & FN); [by rewrite Eo, Et|by rewrite Eo|]. rewrite Ek in K. rewrite Eou in EN. split; [done|]. exists new. split; [done|].
      rewrite <- Hcat. apply payload_eq. rewrite <- Hpc. clear -F2 FN. revert new FN. induction F2 as [|f f' l l2 Hf F IH]; intros new FN; inversion FN as [|? h ? new' Hh FN']; subst; [done|]. cbn. rewrite <- Hf. f_equal; [by destruct Hh as [->| ->]|by apply IH]. }
    assert (Hmk : forall f', (o_mark o = true -> (Z.of_N (wire_size (set_mark (Some 1%N) f')) <= mtu)%Z) -> (Z.of_N (wire_size f') <= mtu)%Z -> within mtu f' /\ (o_mark o = true -> within mtu (set_mark (Some 1%N) f'))) by (unfold within; auto).
    (* a packet with room *)
    assert (Hfit : forall f' d, lp_frag f' = Some d -> (Z.of_N (hdr_size f' + len d + 20) <= mtu - (if o_mark o then 12 else 0))%Z -> within mtu f' /\ (o_mark o = true -> within mtu (set_mark (Some 1%N) f'))).
    { intros f' d Hd Hs. apply Hmk.
      - intros E. rewrite E in Hs. pose proof (hdr_mark f'). pose proof (wire_le (set_mark (Some 1%N) f') d Hd). lia.
      - pose proof (wire_le f' d Hd). destruct (o_mark o); lia. }
    assert (Hrel : o_rel o = true -> forall last l1 r, assign_sequences (l_last s) l = (last, l1) ->
      rel_step max_retx idle_period thr rto false (l_rel s) (RlOut l1 p match n_kind n with KInterest => true | _ => false end) = Some r ->
      k_over (l_k (through root q r (set_llast last s))) = k_over (l_k s) /\ exists new, l_out (through root q r (set_llast last s)) = rev new ++ l_out s /\ payload new = n_wire n).
    { intros Er last l1 r Ea Ers. rewrite Er in *. pose proof (assigned _ _ _ _ Ea) as FA. pose proof (out_attached _ _ _ _ _ _ _ _ _ Te Ers) as FB. cbn in FB. unfold through. cbn [l_rel set_llast].
      rewrite Tm in FB. apply G; try done.
      - clear -FA FB. revert FB. generalize (sends_since (l_rel s) r) as l2. induction FA as [|f f1 l l1 (sq & ->) FA IH]; intros l2 FB; inversion FB as [|? f2 ? l2' (tx & acks & y & HP & _) FB']; subst; constructor; [|by apply IH].
        unfold piggyback in HP. destruct (lp_bare _); [done|]. destruct (take_acks _ _). injection HP as <- _. done.
      - intros f' Hf'. apply elem_of_list_lookup in Hf' as [j Hj]. destruct (Forall2_lookup_r _ _ _ _ _ FB Hj) as (f1 & Hj1 & tx & acks & y & HP & Hacks).
        destruct (Forall2_lookup_r _ _ _ _ _ FA Hj1) as (f & Hj0 & sq & ->). assert (Hf : f ∈ l) by (eapply elem_of_list_lookup_2; done). clear Hj Hj1 Hj0.
        destruct (Hroom f sq Hf) as (d & Hd & Hs). pose proof (hdr_txseq tx (set_seq (Some sq) f)) as Ht.
        assert (Hbase : (Z.of_N (hdr_size (set_txseq (Some tx) (set_seq (Some sq) f)) + len d + 20) <= mtu - (if o_mark o then 12 else 0))%Z) by lia.
        destruct Hcond as [?|[Hn|(Hmark & Hsz)]]; [done| |].
        + specialize (Hacks Hn). subst acks. unfold piggyback in HP. destruct (lp_bare _); [done|]. cbn in HP. injection HP as <- _. apply (Hfit _ d); [done|]. rewrite app_nil_r. exact Hbase.
        + rewrite Hmark in *. split; [|done]. right. eapply piggyback_size; [lia| |exact HP| |].
          * lia.
          * pose proof (wire_le (set_txseq (Some tx) (set_seq (Some sq) f)) d Hd). lia.
          * right. apply (Hsz l f sq tx); [|done]. rewrite <- El. do 2 f_equal. unfold RESERVED_HEADER_SPACE. lia. }
    assert (Hplain : o_rel o = false -> forall last l1, assign_sequences (l_last s) l = (last, l1) ->
      k_over (l_k (finish_each root q l1 (set_llast last s))) = k_over (l_k s) /\ exists new, l_out (finish_each root q l1 (set_llast last s)) = rev new ++ l_out s /\ payload new = n_wire n).
    { intros Er last l1 Ea. rewrite Er in *. pose proof (assigned _ _ _ _ Ea) as FA. apply G; try done.
      - eapply Forall2_impl; [exact FA|]. intros f f' (sq & ->). done.
      - intros f' Hf'. apply elem_of_list_lookup in Hf' as [j Hj]. destruct (Forall2_lookup_r _ _ _ _ _ FA Hj) as (f & Hj1 & sq & ->). destruct (Hroom f sq) as (d & Hd & Hs); [by eapply elem_of_list_lookup_2|]. apply (Hfit _ d); [done|]. lia. }
    destruct l as [|f [|f2 l]]; [done| |].
    - destruct (lp_idx f); [done|]. destruct (lp_cnt f); [done|]. destruct (o_rel o) eqn:Er.
      + destruct (assign_sequences _ _) as [last l1]. destruct (rel_step _ _ _ _ _ _ _) as [r|] eqn:Ers; [|done]. injection Hst as <-. by apply (Hrel eq_refl last l1 r).
      + injection Hst as <-. change (finish root (q 0%nat) f s) with (finish_each root q [f] s). apply G; try done; [by repeat constructor|]. intros f' ->%elem_of_list_singleton.
        destruct (Hroom f 0%N) as (d & Hd & Hs); [left|]. apply (Hfit _ d); [done|]. assert (Hle : (hdr_size f <= hdr_size (set_seq (Some 0%N) f))%N).
        { destruct (lp_seq f) as [x|] eqn:Es; [|by apply hdr_seq]. unfold hdr_size. cbn. rewrite Es. cbn. lia. } lia.
    - destruct (assign_sequences _ _) as [last l1]. destruct (o_rel o) eqn:Er.
      + destruct (rel_step _ _ _ _ _ _ _) as [r|] eqn:Ers; [|done]. injection Hst as <-. by apply (Hrel eq_refl last l1 r).
      + injection Hst as <-. by apply (Hplain eq_refl last l1).
  Qed.

  (** * C46 *)
  Notation decode := (decode type_of interest_ok data_ok nack_ok cache_ok pa_ok).
  (** A packet is passed up iff it is well formed and its fields are allowed; with the tags that are to be passed. *)
  Theorem C46_decode o net p n :
    decode o net p = DPass n <->
    well_formed type_of interest_ok data_ok nack_ok (n_kind n) net /\ allowed cache_ok pa_ok o (n_kind n) p /\ n_wire n = net /\ passed o (n_kind n) p (n_tags n).
  Proof.
    unfold Ls_Model.decode. split.
    - destruct (N.eqb_spec (type_of net) 5) as [Et|Et].
      + destruct (lp_nack p) as [h|] eqn:En.
        * unfold decode_nack. destruct (interest_ok net) eqn:Ei; [|done]. destruct (nack_ok h) eqn:Eh; [|done]. cbn. destruct (lp_nexthop p) eqn:E1; [done|]. destruct (lp_cache p) eqn:E2; [done|]. destruct (lp_nondisc p) eqn:E3; [done|]. destruct (lp_pa p) eqn:E4; [done|]. intros [= <-]. cbn. unfold passed. cbn. done.
        * unfold decode_interest. destruct (interest_ok net) eqn:Ei; [|done]. cbn.
          destruct (lp_nexthop p) eqn:E1; [destruct (o_local o) eqn:E5; cbn; [|done]|cbn]; (destruct (lp_cache p) eqn:E2; [done|]); (destruct (lp_pa p) eqn:E4; [done|]); intros [= <-]; cbn; unfold passed; cbn; rewrite andb_true_iff; try done.
          split; [done|]. split; [|done]. split; [done|]. split; [|done]. intros H. rewrite E1 in H. by destruct H.
      + destruct (N.eqb_spec (type_of net) 6) as [Et'|Et']; [|done]. unfold decode_data. destruct (data_ok net) eqn:Ei; [|done]. cbn. destruct (lp_nack p) eqn:En; [done|]. destruct (lp_nexthop p) eqn:E1; [done|].
        destruct (match lp_cache p with Some c => negb (cache_ok c) | None => false end) eqn:E2; [done|]. destruct (lp_nondisc p) eqn:E3; [done|].
        destruct (match lp_pa p with Some a => o_learn o && negb (pa_ok a) | None => false end) eqn:E4; [done|]. intros [= <-]. cbn. unfold passed. cbn. split; [done|]. split.
        * split; [done|]. split; [done|]. split; [done|]. split; [intros c Ec; rewrite Ec in E2; by apply negb_false_iff|]. intros a Ea Hl. rewrite Ea, Hl in E4. by apply negb_false_iff.
        * split; [done|]. do 6 (split; [done|]). intros a. destruct (o_learn o); [by intuition|]. split; [done|]. by intros [_ ?].
    - destruct n as [k w t]. cbn. intros (Hw & Ha & -> & Hp). destruct k as [| |h]; cbn in *.
      + destruct Hw as [-> Hi]. destruct Ha as (-> & Hl & Hca & Hpa). unfold decode_interest. rewrite Hi, Hca, Hpa. cbn. destruct (match lp_nexthop p with Some _ => true | None => false end && negb (o_local o)) eqn:E.
        { apply andb_true_iff in E as [E1 E2]. rewrite Hl in E2; [done|]. destruct (lp_nexthop p); [eauto|done]. }
        destruct Hp as (P1 & P2 & P3 & P4 & P5 & P6 & P7). destruct t as [a1 a2 a3 a4 a5 a6 a7]. cbn in *. subst. do 3 f_equal. apply Bool.eq_iff_eq_true. rewrite andb_true_iff. by rewrite P7.
      + destruct Hw as [-> Hi]. destruct Ha as (Hna & Hnx & Hnd & Hca & Hpa). cbn. unfold decode_data. rewrite Hi, Hna, Hnx, Hnd. cbn.
        assert (match lp_cache p with Some c => negb (cache_ok c) | None => false end = false) as -> by (destruct (lp_cache p) as [c|]; [rewrite (Hca c eq_refl)|]; done).
        assert (match lp_pa p with Some a => o_learn o && negb (pa_ok a) | None => false end = false) as -> by (destruct (lp_pa p) as [a|]; [destruct (o_learn o); [rewrite (Hpa a eq_refl eq_refl)|]|]; done).
        destruct Hp as (P1 & P2 & P3 & P4 & P5 & P6 & P7). destruct t as [a1 a2 a3 a4 a5 a6 a7]. cbn in *. subst. do 3 f_equal. destruct (o_learn o).
        * destruct (lp_pa p) as [a|]; [symmetry; by apply P7|]. destruct a5 as [a|]; [|done]. destruct (P7 a) as [H _]. destruct (H eq_refl) as [? _]. done.
        * destruct a5 as [a|]; [|done]. destruct (P7 a) as [H _]. destruct (H eq_refl) as [_ ?]. done.
      + destruct Hw as (-> & Hi & Hh). destruct Ha as (-> & Hx & Hca & Hnd & Hpa). unfold decode_nack. cbn. rewrite Hi, Hh, Hx, Hca, Hnd, Hpa. cbn.
        destruct Hp as (P1 & P2 & P3 & P4 & P5 & P6 & P7). destruct t as [a1 a2 a3 a4 a5 a6 a7]. cbn in *. by subst.
  Qed.
  (** Not passed up: a NextHopFaceId without local fields is not an error of the packet, all else is counted *)
  Theorem C46_dropped o net p : decode o net p = DDrop <->
    type_of net = 5%N /\ lp_nack p = None /\ interest_ok net = true /\ is_Some (lp_nexthop p) /\ o_local o = false.
  Proof.
    unfold Ls_Model.decode. split.
    - destruct (N.eqb_spec (type_of net) 5) as [Et|Et].
      + destruct (lp_nack p) as [h|] eqn:En; [unfold decode_nack; by repeat case_match|]. unfold decode_interest. destruct (interest_ok net) eqn:Ei; [|done]. cbn. destruct (lp_nexthop p) eqn:E1; [|by repeat case_match].
        destruct (o_local o) eqn:E2; [by repeat case_match|]. done.
      + destruct (_ =? 6)%N; [|done]. unfold decode_data. by repeat case_match.
    - intros (-> & -> & Hi & [x Hx] & Hl). cbn. unfold decode_interest. by rewrite Hi, Hx, Hl.
  Qed.
  (** A received LpPacket passes up at most one packet: the one decoded from what the reassembler returned, with the
      fields of the first fragment.  C42_delivered says what that is. *)
  Theorem C46_receive q s ep p s' : ls_step q s (LsRecv ep (Some p)) = Some s' ->
    l_up s' = l_up s \/
    exists r net first n, receive_fragment block ep p (l_ra s) = Some (r, RPacket net first) /\ decode (l_o s) net first = DPass n /\ l_up s' = n :: l_up s.
  Proof.
    cbn [Ls_Model.ls_step]. unfold receive.
    assert (Hf : forall l q0 s0, l_up (finish_each root q0 l s0) = l_up s0 /\ l_ra (finish_each root q0 l s0) = l_ra s0 /\ l_o (finish_each root q0 l s0) = l_o s0).
    { induction l as [|x l IH]; intros q0 s0; cbn; [done|]. destruct (IH (fun i => q0 (S i)) (finish root (q0 0%nat) x s0)) as (-> & -> & ->). unfold finish, check_congestion.
      destruct (o_mark _); [|destruct (_ && _); done]. destruct (_ <? 0)%Z; [destruct (_ && _); done|]. destruct (_ <? _)%Z; destruct (l_next s0) as [t|]; [destruct (t <=? _)%Z|..]; cbn; destruct (_ && _); done. }
    assert (Hd : forall s1 s2, l_ra s1 = l_ra s -> l_o s1 = l_o s -> l_up s1 = l_up s -> match lp_frag p with
          | None => Some s1
          | Some _ =>
              if (match lp_idx p, lp_cnt p with None, None => false | _, _ => true end) && negb (o_reasm (l_o s1)) then Some s1
              else match receive_fragment block ep p (l_ra s1) with
                   | None => None
                   | Some (r, RNone) => Some (set_lra r s1)
                   | Some (r, RPacket net first) => Some (pass (decode (l_o s1) net first) (set_lra r s1))
                   | Some (r, RError) => Some (set_k (k_lp_invalid1 (l_k s1)) (set_lra r s1))
                   end
          end = Some s2 -> l_up s2 = l_up s \/ exists r net first n, receive_fragment block ep p (l_ra s) = Some (r, RPacket net first) /\ decode (l_o s) net first = DPass n /\ l_up s2 = n :: l_up s).
    { intros s1 s2 E1 E2 E3 H. destruct (lp_frag p); [|injection H as <-; by left]. destruct (_ && _); [injection H as <-; by left|]. rewrite E1, E2 in H. destruct (receive_fragment _ _ _ _) as [[r [|net first|]]|] eqn:Er; [..|done]; injection H as <-; [by left| |by left].
      destruct (decode (l_o s) net first) as [n| |] eqn:Ed; [right|by left..]. exists r, net, first, n. cbn. by rewrite E3. }
    destruct (o_rel (l_o s)); [|by apply Hd]. destruct (process_incoming _ _ _ _ _ _ _) as [[r [|]]|]; [..|done].
    - destruct (Hf (sends_since (l_rel s) r) q (set_lrel r s)) as (F1 & F2 & F3). by apply Hd.
    - intros [= <-]. left. unfold through. cbn. by destruct (Hf (sends_since (l_rel s) r) q (set_lrel r s)) as (-> & _ & _).
  Qed.
  (** and it does: a packet that is not a duplicate, and is a fragment only if reassembly is on, passes up what it completes, or counts it *)
  Theorem C46_complete q s ep p r net first s' : ls_step q s (LsRecv ep (Some p)) = Some s' ->
    lp_frag p <> None -> (lp_idx p = None /\ lp_cnt p = None \/ o_reasm (l_o s) = true) ->
    (o_rel (l_o s) = true -> exists r0, process_incoming max_retx idle_period thr rto false p (l_rel s) = Some (r0, true)) ->
    receive_fragment block ep p (l_ra s) = Some (r, RPacket net first) ->
    match decode (l_o s) net first with
    | DPass n => l_up s' = n :: l_up s /\ k_net_invalid (l_k s') = k_net_invalid (l_k s)
    | DDrop => l_up s' = l_up s /\ k_net_invalid (l_k s') = k_net_invalid (l_k s)
    | DInvalid => l_up s' = l_up s /\ k_net_invalid (l_k s') = (k_net_invalid (l_k s) + 1)%N
    end.
  Proof.
    cbn [Ls_Model.ls_step]. unfold receive. intros H Hf Hi Hr Hrf.
    assert (Hfe : forall l q0 s0, l_up (finish_each root q0 l s0) = l_up s0 /\ l_ra (finish_each root q0 l s0) = l_ra s0 /\ l_o (finish_each root q0 l s0) = l_o s0 /\ k_net_invalid (l_k (finish_each root q0 l s0)) = k_net_invalid (l_k s0)).
    { induction l as [|x l IH]; intros q0 s0; cbn; [done|]. destruct (IH (fun i => q0 (S i)) (finish root (q0 0%nat) x s0)) as (-> & -> & -> & ->). unfold finish, check_congestion.
      destruct (o_mark _); [destruct (_ <? 0)%Z; [|destruct (_ <? _)%Z; destruct (l_next s0) as [t|]; [destruct (t <=? _)%Z|..]]|]; cbn beta iota zeta; match goal with |- context [if ?b then _ else _] => destruct b end; repeat split. }
    assert (Hd : exists s1, l_ra s1 = l_ra s /\ l_o s1 = l_o s /\ l_up s1 = l_up s /\ k_net_invalid (l_k s1) = k_net_invalid (l_k s) /\ match lp_frag p with
          | None => Some s1
          | Some _ =>
              if (match lp_idx p, lp_cnt p with None, None => false | _, _ => true end) && negb (o_reasm (l_o s1)) then Some s1
              else match receive_fragment block ep p (l_ra s1) with
                   | None => None
                   | Some (r, RNone) => Some (set_lra r s1)
                   | Some (r, RPacket net first) => Some (pass (decode (l_o s1) net first) (set_lra r s1))
                   | Some (r, RError) => Some (set_k (k_lp_invalid1 (l_k s1)) (set_lra r s1))
                   end
          end = Some s').
    { destruct (o_rel (l_o s)); [|by exists s]. destruct (Hr eq_refl) as [r0 Hr0]. rewrite Hr0 in H. exists (through root q r0 s). destruct (Hfe (sends_since (l_rel s) r0) q (set_lrel r0 s)) as (F1 & F2 & F3 & F4). done. }
    clear H. destruct Hd as (s1 & E1 & E2 & E3 & E4 & H). destruct (lp_frag p); [|done]. rewrite E1, E2, Hrf in H.
    assert ((match lp_idx p, lp_cnt p with None, None => false | _, _ => true end) && negb (o_reasm (l_o s)) = false) as Hz by (destruct Hi as [[-> ->]| ->]; [done|by rewrite andb_false_r]).
    rewrite Hz in H. injection H as <-. destruct (decode (l_o s) net first) as [n| |]; cbn; by rewrite ?E3, ?E4.
  Qed.
  (** Sending: which tags become fields *)
  Theorem C46_encode o n : let p := encode o n in
    lp_frag p = Some (n_wire n) /\ (forall h, lp_nack p = Some h <-> n_kind n = KNack h) /\
    (forall f, lp_inface p = Some f <-> t_inface (n_tags n) = Some f /\ o_local o = true) /\
    (lp_nondisc p = true <-> t_nondisc (n_tags n) = true /\ o_learn o = true) /\
    (forall a, lp_pa p = Some a <-> t_pa (n_tags n) = Some a /\ o_learn o = true) /\
    lp_mark p = t_mark (n_tags n) /\ lp_pit p = t_pit (n_tags n) /\
    lp_nexthop p = None /\ lp_cache p = None /\ lp_seq p = None /\ lp_idx p = None /\ lp_cnt p = None /\ lp_txseq p = None /\ lp_acks p = [].
  Proof.
    cbn zeta. unfold encode. cbn [lp_frag lp_nack lp_inface lp_nondisc lp_pa lp_mark lp_pit lp_nexthop lp_cache lp_seq lp_idx lp_cnt lp_txseq lp_acks]. split; [done|]. split.
    { intros h. destruct (n_kind n); split; try done; by intros [= ->]. }
    split; [intros f; destruct (o_local o); split; intuition congruence|]. split; [rewrite andb_true_iff; tauto|]. split; [intros f; destruct (o_learn o); split; intuition congruence|]. done.
  Qed.

  (** * C47 *)
  (** A packet is marked iff the queue is longer than the threshold and the next marking time of this incident has come: with the options
      unchanged in the incident, that is the base interval after it began, and then an interval more for each mark. *)
  Theorem C47_exact s l1 c l2 b : ls_reached s -> l_checks s = l1 ++ c :: l2 -> (forall d, d ∈ incident l2 -> c_base d = b) ->
    (c_marked c = true <-> (c_thr c < c_len c)%Z /\ exists c0, began l2 = Some c0 /\ (c_time c0 + wait root b (marks (incident l2)) <= c_time c)%Z).
  Proof.
    intros (o & m & t & rm & rt & l & H) E Hb. destruct (hist_mk _ _ _ _ _ _ _ _ _ _ _ _ _ _ _ H) as (_ & _ & V); [done|]. rewrite E in V.
    assert (V2 : verdicts root l2). { clear -V. induction l1 as [|d l1 IH]; cbn in V; destruct V as [? V]; [done|auto]. }
    etransitivity; [exact (verdict_of root l1 c l2 V)|]. apply and_iff_compat_l. unfold began. split.
    - intros (t0 & Hd & Ht). destruct (last (incident l2)) as [c0|] eqn:El.
      + exists c0. split; [done|]. destruct (incident_last root l2 c0 V2 El) as [Hm _]. rewrite (due_wait root b _ c0 El Hb Hm) in Hd. injection Hd as <-. done.
      + apply last_None in El. by rewrite El in Hd.
    - intros (c0 & El & Ht). destruct (incident_last root l2 c0 V2 El) as [Hm _]. exists (c_time c0 + wait root b (marks (incident l2)))%Z. split; [|done]. by apply due_wait.
  Qed.
  (** Marked only if the queue has been longer than the threshold for the base interval, at every packet sent since, whatever the options *)
  Theorem C47_only s l1 c l2 : (forall b n, (0 <= root b n)%Z) -> ls_reached s -> l_checks s = l1 ++ c :: l2 -> c_marked c = true ->
    exists mid c0 rest, l2 = mid ++ c0 :: rest /\ (c_time c0 + c_base c0 <= c_time c)%Z /\ forall d, d ∈ c :: mid ++ [c0] -> (c_thr d < c_len d)%Z.
  Proof.
    intros Hr (o & m & t & rm & rt & l & H) E Hm. destruct (hist_mk _ _ _ _ _ _ _ _ _ _ _ _ _ _ _ H) as (_ & _ & V); [done|]. rewrite E in V.
    apply (verdict_of root l1 c l2 V) in Hm as (Ha & t0 & Hd & Ht). destruct (due_lower root _ _ Hr Hd) as (c0 & El & Hc).
    apply last_Some in El as (mid & Ei). assert (Hp : exists rest, l2 = incident l2 ++ rest).
    { clear. induction l2 as [|d l IH]; [by exists []|]. cbn. destruct (_ <? _)%Z; [|by exists (d :: l)]. destruct IH as [rest IH]. exists rest. cbn. by rewrite <- IH. }
    destruct Hp as [rest Hp]. exists mid, c0, rest. split; [rewrite Hp, Ei, <- app_assoc; done|]. split; [lia|]. intros d [->|Hin]%elem_of_cons; [done|]. rewrite <- Ei in Hin. by apply incident_above in Hin.
  Qed.
  (** When the queue is no longer than the threshold the incident ends: marks are counted, and the base interval is waited for, anew *)
  Theorem C47_reset s c l : ls_reached s -> l_checks s = c :: l -> (c_len c <= c_thr c)%Z -> l_next s = None /\ l_inmark s = 0%N.
  Proof.
    intros (o & m & t & rm & rt & l' & H) E Hc. destruct (hist_mk _ _ _ _ _ _ _ _ _ _ _ _ _ _ _ H) as (H1 & H2 & _); [done|]. rewrite E in H1, H2. cbn in H1, H2. destruct (Z.ltb_spec (c_thr c) (c_len c)); [lia|]. done.
  Qed.
End props.

(** ** The exact interval: the largest number of nanoseconds that is at most the base divided by the square root of n *)
Definition root_exact (b : Z) (n : N) : Z := Z.sqrt (b * b / Z.of_N n).
Theorem C47_interval b n : (0 <= b)%Z -> (0 < n)%N ->
  (0 <= root_exact b n /\ Z.of_N n * (root_exact b n * root_exact b n) <= b * b < Z.of_N n * ((root_exact b n + 1) * (root_exact b n + 1)))%Z.
Proof.
  intros Hb Hn. unfold root_exact. set (x := (b * b / Z.of_N n)%Z). assert (Hx : (0 <= x)%Z) by (apply Z.div_pos; nia).
  pose proof (Z.sqrt_spec x Hx) as [S1 S2]. split; [apply Z.sqrt_nonneg|]. unfold Z.succ in S2.
  pose proof (Z.mul_div_le (b * b) (Z.of_N n) ltac:(lia)) as D1. fold x in D1. pose proof (Z.mul_succ_div_gt (b * b) (Z.of_N n) ltac:(lia)) as D2. fold x in D2. split; nia.
Qed.
(** Intervals never grow in an incident, and never exceed the base *)
Theorem C47_decreasing b n : (0 <= b)%Z -> (0 < n)%N -> (root_exact b (n + 1) <= root_exact b n <= b)%Z.
Proof.
  intros Hb Hn. unfold root_exact. split.
  - apply Z.sqrt_le_mono. apply Z.div_le_compat_l; [nia|lia].
  - rewrite <- (Z.sqrt_square b) at 3 by done. apply Z.sqrt_le_mono. apply Z.div_le_upper_bound; [lia|]. nia.
Qed.

(** * Examples *)
Definition ex_type (l : list N) : N := hd 0%N l.
Definition ex_block (l : list N) : option (list N) := match l with [] => None | _ => Some l end.
Definition yes (l : list N) : bool := true.
Notation ex_step := (ls_step root_exact ex_type yes yes yes yes yes ex_block 3 5 3 (fun _ => 1000%Z)).
Fixpoint ls_run (l : list (ls_ev * (nat -> Z))) (s : ls) : option ls :=
  match l with [] => Some s | (e, q) :: l' => match ex_step q s e with Some s' => ls_run l' s' | None => None end end.
Notation ex_reached := (ls_reached root_exact ex_type yes yes yes yes yes ex_block 3 5 3 (fun _ => 1000%Z)).
Lemma ls_run_hist l : forall s0 l0 s s', Forall (fun x => ls_ok (fst x)) l ->
  ls_hist root_exact ex_type yes yes yes yes yes ex_block 3 5 3 (fun _ => 1000%Z) s0 l0 s -> ls_run l s = Some s' ->
  ls_hist root_exact ex_type yes yes yes yes yes ex_block 3 5 3 (fun _ => 1000%Z) s0 (l0 ++ l) s'.
Proof.
  induction l as [|[e q] l IH]; cbn; intros s0 l0 s s' Hl H0 H; [injection H as <-; by rewrite app_nil_r|].
  destruct (ex_step q s e) as [s1|] eqn:E; [|done]. apply Forall_cons_1 in Hl as [Hl1 Hl]. change (l0 ++ (e, q) :: l) with (l0 ++ [(e, q)] ++ l). rewrite app_assoc. eapply IH; [done| |done]. by econstructor.
Qed.
Lemma ls_run_reached o m l s : Forall (fun x => ls_ok (fst x)) l -> ls_run l (ls_new o m 0 100 500) = Some s -> ex_reached s.
Proof. intros Hl H. exists o, m, 0%Z, 100%N, 500%Z, l. apply (ls_run_hist l _ [] _ _ Hl (lh_nil _ _ _ _ _ _ _ _ _ _ _ _ _) H). Qed.
Definition no_queue (i : nat) : Z := 0%Z.
Definition ex_opts (rel mark : bool) : ls_opts := LsOpts true true true rel mark 100 10 true 9223372036854775807 400.
(** an Interest of n octets; a received fragment with a TxSequence *)
Definition ex_interest (n : nat) : net_packet := NetPacket KInterest (5%N :: replicate n 0%N) no_tags.
Definition ex_recv (x : N) : lp := set_seq (Some x) (set_txseq (Some x) (set_frag (Some [5%N]) lp_empty)).

(** the Interest is cut in three; marking is on, and the queue is long *)
Example ex_fragments :
  match ls_run [(LsSend (ex_interest 300), fun _ => 50%Z); (LsTick 100, no_queue); (LsSend (ex_interest 300), fun _ => 50%Z)] (ls_new (ex_opts false true) 200 0 100 500) with
  | Some s => bool_decide (map (fun h => (wire_size (h_pkt h), lp_mark (h_pkt h))) (l_out s) =
                [(45, None); (158, None); (163, Some 1); (45, None); (158, None); (158, None)])%N && bool_decide (k_over (l_k s) = 0%N) && bool_decide (k_marked (l_k s) = 1%N)
  | None => false
  end = true.
Proof. vm_compute. reflexivity. Qed.

(** The full statement is false in two ways.  First: Acks fill the packet, then a CongestionMark is added. *)
Theorem C45_mark_refuted : exists s q n s', ex_reached s /\ o_frag (l_o s) = true /\ n_wire n <> [] /\ (24 <= effective_mtu (l_o s) (l_tmtu s) <= 65535)%Z /\
  ex_step q s (LsSend n) = Some s' /\ k_over (l_k s') = (k_over (l_k s) + 1)%N /\ k_frag_err (l_k s') = k_frag_err (l_k s) /\ l_out s' = l_out s.
Proof.
  set (evs := [(LsSend (ex_interest 30), fun _ => 50%Z); (LsTick 100, no_queue)] ++ ((fun x => (LsRecv 0 (Some (ex_recv x)), no_queue)) <$> [1; 2; 3; 4; 5; 6; 7; 8; 9; 10]%N)).
  assert (H : match ls_run evs (ls_new (ex_opts true true) 155 0 100 500) with
    | Some s => match ex_step (fun _ => 50%Z) s (LsSend (ex_interest 40)) with
        | Some s' => bool_decide (effective_mtu (l_o s) (l_tmtu s) = 155%Z) && o_frag (l_o s) && bool_decide (k_over (l_k s') = (k_over (l_k s) + 1)%N) && bool_decide (k_frag_err (l_k s') = k_frag_err (l_k s)) && bool_decide (length (l_out s') = length (l_out s))
        | None => false end
    | None => false end = true) by (vm_compute; reflexivity).
  destruct (ls_run evs _) as [s|] eqn:E; [|done]. destruct (ex_step _ s _) as [s'|] eqn:E'; [|done].
  rewrite !andb_true_iff in H. destruct H as ((((H1%bool_decide_eq_true & H2) & H3%bool_decide_eq_true) & H4%bool_decide_eq_true) & H5%bool_decide_eq_true).
  exists s, (fun _ => 50%Z), (ex_interest 40), s'. split; [|do 2 (split; [done|]); rewrite H1; split; [lia|]; do 3 (split; [done|])].
  - eapply ls_run_reached; [|exact E]. unfold evs. cbn [fmap list_fmap app]. repeat (apply List.Forall_cons; [first [exact I | cbn; lia]|]). apply List.Forall_nil.
  - destruct (step_out _ _ _ _ _ _ _ _ _ _ _ _ _ _ _ _ E') as (new & En & _). rewrite En in H5. rewrite app_length in H5. destruct new; [done|]. cbn in H5. lia.
Qed.
(** Second: the space kept for a longer TLV-LENGTH is computed from the size of the packet, not from its TLV-LENGTH.  No marking is needed. *)
Theorem C45_length_refuted : exists s n s', ex_reached s /\ o_frag (l_o s) = true /\ o_mark (l_o s) = false /\ n_wire n <> [] /\ (24 <= effective_mtu (l_o s) (l_tmtu s) <= 65535)%Z /\
  ex_step no_queue s (LsSend n) = Some s' /\ k_over (l_k s') = (k_over (l_k s) + 1)%N /\ k_frag_err (l_k s') = k_frag_err (l_k s) /\ l_out s' = l_out s.
Proof.
  set (evs := (fun x => (LsRecv 0 (Some (ex_recv x)), no_queue)) <$> [1; 2]%N).
  assert (H : match ls_run evs (ls_new (ex_opts true false) 277 0 100 500) with
    | Some s => match ex_step no_queue s (LsSend (ex_interest 226)) with
        | Some s' => bool_decide (effective_mtu (l_o s) (l_tmtu s) = 277%Z) && o_frag (l_o s) && negb (o_mark (l_o s)) && bool_decide (k_over (l_k s') = (k_over (l_k s) + 1)%N) && bool_decide (k_frag_err (l_k s') = k_frag_err (l_k s)) && bool_decide (length (l_out s') = length (l_out s))
        | None => false end
    | None => false end = true) by (vm_compute; reflexivity).
  destruct (ls_run evs _) as [s|] eqn:E; [|done]. destruct (ex_step _ s _) as [s'|] eqn:E'; [|done].
  rewrite !andb_true_iff in H. destruct H as (((((H1%bool_decide_eq_true & H2) & H2'%negb_true_iff) & H3%bool_decide_eq_true) & H4%bool_decide_eq_true) & H5%bool_decide_eq_true).
  exists s, (ex_interest 226), s'. split; [|do 3 (split; [done|]); rewrite H1; split; [lia|]; do 3 (split; [done|])].
  - eapply ls_run_reached; [|exact E]. unfold evs. cbn [fmap list_fmap app]. repeat (apply List.Forall_cons; [first [exact I | cbn; lia]|]). apply List.Forall_nil.
  - destruct (step_out _ _ _ _ _ _ _ _ _ _ _ _ _ _ _ _ E') as (new & En & _). rewrite En in H5. rewrite app_length in H5. destruct new; [done|]. cbn in H5. lia.
Qed.
(** With both features on and an MTU of 23, what is left for a fragment is -1, which means unlimited: nothing is cut. *)
Theorem C45_reserve_refuted : fragment_mtu (ex_opts true true) 23 = Some MTU_UNLIMITED.
Proof. reflexivity. Qed.

(** a NextHopFaceId is passed, or the Interest is dropped *)
Example ex_fields :
  let p := Lp None None None (Some [7%N]) None (Some 9%N) None None (Some 3%N) [] None true None (Some [5%N]) in
  decode ex_type yes yes yes yes yes (ex_opts true true) [5%N] p = DPass (NetPacket KInterest [5%N] (Tags None (Some 9%N) (Some 3%N) true None (Some [7%N]) None)) /\
  decode ex_type yes yes yes yes yes (LsOpts false true true true true 100 10 false 0 0) [5%N] p = DDrop /\
  decode ex_type yes yes yes yes yes (ex_opts true true) [6%N] p = DInvalid.
Proof. done. Qed.

Print Assumptions C45_limit.
Print Assumptions C45_mtu.
Print Assumptions C45_effective.
Print Assumptions C45_one.
Print Assumptions C45_fits_partial.
Print Assumptions C45_mark_refuted.
Print Assumptions C45_length_refuted.
Print Assumptions C45_reserve_refuted.
Print Assumptions C46_decode.
Print Assumptions C46_dropped.
Print Assumptions C46_receive.
Print Assumptions C46_complete.
Print Assumptions C46_encode.
Print Assumptions C47_exact.
Print Assumptions C47_only.
Print Assumptions C47_reset.
Print Assumptions C47_interval.
Print Assumptions C47_decreasing.
