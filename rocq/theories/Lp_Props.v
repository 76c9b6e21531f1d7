(** C40, C41, C42: fragmentation and reassembly. *)
From stdpp Require Import gmap.
From Verif Require Import Lib Lp_Model Lp_Spec Lp_Frag Lp_Ra Lp_Round.

(** * C41: fragments *)
Section C41.
  Variables (max mtu : N) (p : lp) (net : list N).
  Hypothesis Hnet : lp_frag p = Some net.
  Hypothesis Hne : net <> [].
  Hypothesis Hi : lp_idx p = None.
  Hypothesis Hc : lp_cnt p = None.

  (** no assertion of the fragmenter fails *)
  Theorem C41_defined : fragment_packet max p mtu <> None.
  Proof. destruct (fragment_cases max p net mtu Hnet Hne Hi Hc) as [[_ ->]|(_ & [[_ ->]|(_ & [[_ ->]|(_ & l & -> & _)])])]; done. Qed.

  (** a packet is left whole iff it fits with 30 octets to spare *)
  Theorem C41_whole : fragment_packet max p mtu = Some (Some [p]) <-> (30 + wire_size p <= mtu)%N.
  Proof.
    destruct (fragment_cases max p net mtu Hnet Hne Hi Hc) as [[? ->]|(? & [[_ ->]|(_ & [[_ ->]|(_ & l & -> & _ & Hl)])])]; (split; [|done || lia]); try done.
    intros [= ->]. simpl in Hl. lia.
  Qed.

  (** otherwise it is cut into at least two fragments, as few as have room for it *)
  Theorem C41_fragments l : fragment_packet max p mtu = Some (Some l) -> l <> [p] ->
    fragments p net l /\ (2 <= length l)%nat /\ (N.of_nat (length l) <= max)%N /\
    least (fun k => enough k (mtu - 50) (hdr_size p) (len net)) (N.of_nat (length l)).
  Proof.
    intros E Hl. destruct (fragment_cases max p net mtu Hnet Hne Hi Hc) as [[? E']|(? & [[_ E']|(Hm & [[_ E']|(Hx & l' & E' & F & H2)])])]; rewrite E' in E; try congruence.
    injection E as ->. pose proof (fd_len _ _ _ _ _ _ F) as HL. rewrite N.add_0_l in HL. rewrite HL. split; [by eapply filled_fragments|]. split; [done|]. split; [done|].
    by apply count_least.
  Qed.

  (** each fits the MTU, with a Sequence *)
  Theorem C41_fits l q sq : fragment_packet max p mtu = Some (Some l) -> q ∈ l ->
    (wire_size (set_seq (Some sq) q) <= mtu)%N.
  Proof.
    intros E Hq. destruct (fragment_room max p net mtu l q sq Hnet Hne Hi Hc E Hq) as (d & Hd & Hs). pose proof (wire_le (set_seq (Some sq) q) d Hd). lia.
  Qed.

  (** a packet is refused iff not even one octet has room in the first fragment, or more
      fragments than allowed would be needed *)
  Theorem C41_refused : fragment_packet max p mtu = Some None <->
    (mtu < 30 + wire_size p)%N /\ ((mtu < 50 + hdr_size p + 1)%N \/ forall k, (k <= max)%N -> ~ enough k (mtu - 50) (hdr_size p) (len net)).
  Proof.
    destruct (fragment_cases max p net mtu Hnet Hne Hi Hc) as [[Hle ->]|(Hgt & [[Hm ->]|(Hm & H)])]; [split; [done|intros [? _]; lia]|split; [|done]; intros _; split; [done|left; lia]|].
    pose proof (count_least p net mtu Hm Hne) as [L1 L2]. destruct H as [[Hx ->]|(Hx & l & -> & _)].
    - split; [|done]. intros _. split; [done|]. right. intros k Hk He. apply L2 in He. lia.
    - split; [done|]. intros [_ [?|H]]; [lia|]. exfalso. by eapply H.
  Qed.
End C41.

(** ** Example: 300 octets with a PIT token over an MTU of 120 *)
Definition ex_net : list N := replicate 300 7%N.
Definition ex_lp : lp := set_pit (Some [1; 2; 3; 4]%N) (set_frag (Some ex_net) lp_empty).
Definition ex_frags : list lp := match fragment_packet 400 ex_lp 120 with Some (Some l) => l | _ => [] end.
Example C41_ex : map (fun q => (lp_idx q, lp_cnt q, lp_pit q, length <$> lp_frag q, wire_size q)) ex_frags =
  [(Some 0, Some 5, Some [1; 2; 3; 4], Some 64%nat, 80);
   (Some 1, Some 5, None, Some 70%nat, 80); (Some 2, Some 5, None, Some 70%nat, 80); (Some 3, Some 5, None, Some 70%nat, 80);
   (Some 4, Some 5, None, Some 26%nat, 36)]%N /\
  fragment_packet 400 ex_lp 56 = Some None /\ fragment_packet 4 ex_lp 120 = Some None /\ fragment_packet 400 ex_lp 344 = Some (Some [ex_lp]).
Proof. vm_compute. done. Qed.

(** * C40: fragmentation followed by reassembly *)

Lemma assign_spec last l last' sent : (last < SEQ)%N -> assign_sequences last l = (last', sent) ->
  (last' < SEQ)%N /\ last' = ((last + N.of_nat (length l)) mod SEQ)%N /\ length sent = length l /\
  forall i, sent !! i = set_seq (Some ((last + 1 + N.of_nat i) mod SEQ)%N) <$> l !! i.
Proof.
  assert (HS : (0 < SEQ)%N) by done.
  revert last last' sent. induction l as [|p l IH]; intros last last' sent Hl H; simpl in H.
  - injection H as <- <-. rewrite N.add_0_r, N.mod_small by done. done.
  - destruct (assign_sequences (seq_next last) l) as [x r] eqn:E. injection H as <- <-.
    destruct (IH (seq_next last) x r) as (H1 & H2 & H3 & H4); [apply N.mod_lt; lia|done|]. split; [done|].
    assert (Hadd : forall a, ((seq_next last + a) mod SEQ = (last + 1 + a) mod SEQ)%N) by (intros a; unfold seq_next; by rewrite N.add_mod_idemp_l by lia).
    split; [rewrite H2, Hadd; simpl length; f_equal; lia|]. split; [simpl; by rewrite H3|].
    intros [|i]; simpl; [unfold seq_next; by rewrite N.add_0_r|]. rewrite H4. destruct (l !! i); [|done]. simpl. rewrite <- N.add_assoc, Hadd. do 4 f_equal. lia.
Qed.

Section C40.
  Variable block : list N -> option (list N).
  (** the sender: a packet [p] carrying [net] is fragmented into [frags] and given Sequences *)
  Variables (fmax mtu : N) (p : lp) (net : list N) (frags sent : list lp) (last last' : N).
  Hypothesis Hnet : lp_frag p = Some net.
  Hypothesis Hne : net <> [].
  Hypothesis Hi : lp_idx p = None.
  Hypothesis Hc : lp_cnt p = None.
  Hypothesis Hf : fragment_packet fmax p mtu = Some (Some frags).
  Hypothesis Hmax : (fmax < SEQ)%N.
  Hypothesis Hlast : (last < SEQ)%N.
  Hypothesis Hs : assign_sequences last frags = (last', sent).

  Lemma sent_message ep : frags <> [p] -> message ep (ep, seq_next last) sent.
  Proof.
    intros Hw. destruct (C41_fragments fmax mtu p net Hnet Hne Hi Hc frags Hf Hw) as ([F1 _ _ _] & H2 & H3 & _).
    destruct (assign_spec _ _ _ _ Hlast Hs) as (_ & _ & HL & HA). split; [lia|]. intros j q Hj. rewrite HA in Hj.
    destruct (frags !! j) as [q0|] eqn:E; [|done]. injection Hj as <-. destruct (F1 j q0 E) as [E1 E2]. apply lookup_lt_Some in E.
    assert (Hidx : index_of (set_seq (Some ((last + 1 + N.of_nat j) mod SEQ)%N) q0) = N.of_nat j) by (unfold index_of; simpl; by rewrite E1).
    split; [done|]. split; [unfold count_of; simpl; rewrite E2; simpl; lia|]. rewrite Hidx. split; [|lia].
    exists ((last + 1 + N.of_nat j) mod SEQ)%N. simpl. split; [done|]. assert (HS : (0 < SEQ)%N) by done. split; [apply N.mod_lt; lia|]. split; [done|]. split; [apply N.mod_lt; lia|].
    rewrite Hidx. unfold seq_next. rewrite N.add_mod_idemp_l, N.mod_mod by lia. done.
  Qed.

  (** the receiver: any history [h0] before; then a history in which nobody else uses the
      message identifier and the partial packet is not given up, in which the fragments arrive in any order, any number of
      times, among anything else; the last event brings the last of them for the first time *)
  Theorem C40_roundtrip ep m t z h0 s0 h e o s' b :
    ra_hist block (ra_new m t z) h0 s0 -> ra_parts s0 !! (ep, seq_next last) = None -> (N.of_nat (length sent) <= ra_max s0)%N ->
    frags <> [p] ->
    ra_hist block s0 (h ++ [(e, o)]) s' ->
    (forall x, x ∈ h ++ [(e, o)] -> unshared ep (ep, seq_next last) sent (fst x)) ->
    (exists q, q ∈ sent /\ ~ arrived ep q h) -> (forall q, q ∈ sent -> arrived ep q (h ++ [(e, o)])) ->
    block net = Some b ->
    (forall q o', q ∈ sent -> (RaRecv ep q, o') ∈ h -> o' = RNone) /\
    (exists first, sent !! 0%nat = Some first /\ o = RPacket b first /\
       other_fields first = set_seq (Some (seq_next last)) (other_fields p)) /\
    ra_parts s' !! (ep, seq_next last) = None.
  Proof.
    intros H0 Hk0 Hm0 Hw H Hu Hmiss Hall Hb. pose proof (sent_message ep Hw) as G.
    inversion H as [Hnil|h1 s e1 s1 o1 H1 Hok Hst Eh]; [by destruct h|]. apply app_inj_tail in Eh as [-> [= -> ->]]. subst s1.
    destruct (waits block ep (ep, seq_next last) sent G s0 h s) as (I & P & Ho); try done; [by eapply hist_inv|intros; apply Hu; set_solver|]. split; [done|].
    destruct Hmiss as (q0 & Hq0 & Hna). destruct (Hall q0 Hq0) as [o0 [Hx|Hx%elem_of_list_singleton]%elem_of_app]; [exfalso; apply Hna; by exists o0|].
    injection Hx as <- <-.
    destruct (mine_step block ep (ep, seq_next last) sent G h s q0 s' o0 I Hok Hq0 Hst P) as [((q' & Hq' & Hn) & _)|[(_ & _ & pieces & first & Hpc & Hfst & Hx)|(Ha & _)]];
      [by exfalso; apply Hn, Hall| |done].
    destruct (C41_fragments fmax mtu p net Hnet Hne Hi Hc frags Hf Hw) as ([_ F2 _ (ps & F4 & F5 & _)] & H2 & H3 & _).
    destruct (assign_spec _ _ _ _ Hlast Hs) as (_ & _ & HL & HA).
    assert (map lp_frag sent = map lp_frag frags) as E.
    { apply list_eq. intros i. rewrite !(list_lookup_fmap lp_frag), HA. destruct (frags !! i); done. }
    assert (pieces = ps) as ->. { rewrite E, F4 in Hpc. symmetry. eapply (inj (fmap Some)). exact Hpc. }
    rewrite F5, Hb in Hx. destruct Hx as [Hx ->]. split; [|done]. exists first. split; [done|]. split; [done|].
    rewrite HA in Hfst. destruct (frags !! 0%nat) as [f0|] eqn:E0; [|done]. specialize (F2 f0 eq_refl). injection Hfst as <-. rewrite N.add_0_r.
    change (other_fields (set_seq (Some ((last + 1) mod SEQ)%N) f0)) with (set_seq (Some ((last + 1) mod SEQ)%N) (other_fields f0)). by rewrite F2.
  Qed.

  (** as long as one fragment is missing nothing is delivered; so, after a delivery, not again before all
      of them have arrived again *)
  Theorem C40_incomplete ep m t z h0 s0 h s :
    ra_hist block (ra_new m t z) h0 s0 -> ra_parts s0 !! (ep, seq_next last) = None -> (N.of_nat (length sent) <= ra_max s0)%N ->
    frags <> [p] -> ra_hist block s0 h s -> (forall x, x ∈ h -> unshared ep (ep, seq_next last) sent (fst x)) ->
    (exists q, q ∈ sent /\ ~ arrived ep q h) -> forall q o, q ∈ sent -> (RaRecv ep q, o) ∈ h -> o = RNone.
  Proof.
    intros H0 Hk0 Hm0 Hw H Hu Hmiss. pose proof (sent_message ep Hw) as G.
    eapply (waits block ep (ep, seq_next last) sent G s0 h s); try done. by eapply hist_inv.
  Qed.

  (** a packet that was left whole is delivered at once, with or without a Sequence *)
  Theorem C40_whole ep s sq b : (1 <= ra_max s)%N -> block net = Some b ->
    ra_step block s (RaRecv ep (set_seq sq p)) = Some (s, RPacket b (set_seq sq p)).
  Proof.
    intros Hm Hb. simpl. unfold receive_fragment. simpl. rewrite Hnet, Hi, Hc. simpl.
    destruct (N.ltb_spec (ra_max s) 1); [lia|]. by rewrite Hb.
  Qed.

  (** the message identifiers of packets of one sender differ, if fewer than 2^64 Sequences were
      used: [n] of them between the two packets *)
  Theorem C40_distinct frags2 sent2 last2 last2' ep n q :
    frags <> [p] -> (exists p2 net2, fragments p2 net2 frags2) -> (N.of_nat (length frags2) < SEQ)%N ->
    last2 = ((last' + n) mod SEQ)%N -> (N.of_nat (length frags) + n < SEQ)%N -> assign_sequences last2 frags2 = (last2', sent2) ->
    q ∈ sent2 -> ~ belongs ep q (ep, seq_next last).
  Proof.
    assert (HS : (0 < SEQ)%N) by done.
    intros Hw (p2 & net2 & [F1 _ _ _]) Hl2 Hlast2 Hn Hs2 [j Hj]%elem_of_list_lookup (sq & Hsq & _ & _ & _ & Hb).
    assert (Hl2' : (last2 < SEQ)%N) by (rewrite Hlast2; apply N.mod_lt; lia).
    destruct (assign_spec _ _ _ _ Hl2' Hs2) as (_ & _ & _ & HA). rewrite HA in Hj. destruct (frags2 !! j) as [q0|] eqn:E; [|done]. injection Hj as <-.
    simpl in Hsq. injection Hsq as <-. destruct (F1 j q0 E) as [E1 _]. unfold index_of in Hb. simpl in Hb. rewrite E1 in Hb. simpl in Hb.
    destruct (assign_spec _ _ _ _ Hlast Hs) as (_ & Hlast' & _ & _).
    destruct (C41_fragments fmax mtu p net Hnet Hne Hi Hc frags Hf Hw) as (_ & H2 & _).
    unfold seq_next in Hb. rewrite N.mod_mod, N.add_mod_idemp_l in Hb by lia. rewrite Hlast2, Hlast' in Hb.
    rewrite <- !(N.add_assoc _ _ (N.of_nat j)) in Hb.
    rewrite N.add_mod_idemp_l, <- (N.add_assoc (_ mod SEQ)), N.add_mod_idemp_l in Hb by lia.
    set (a := (last + (1 + N.of_nat j))%N) in *. set (d := (N.of_nat (length frags) + n)%N) in *.
    replace (last + N.of_nat (length frags) + (n + (1 + N.of_nat j)))%N with (a + d)%N in Hb by lia.
    assert (0 < d < SEQ)%N by lia. clearbody a d. clear -Hb H HS.
    pose proof (N.div_mod' a SEQ). pose proof (N.div_mod' (a + d) SEQ). pose proof (N.mod_lt a SEQ ltac:(lia)).
    assert (((a + d) / SEQ = a / SEQ) \/ ((a + d) / SEQ >= a / SEQ + 1))%N as [E|E].
    { pose proof (N.div_le_mono a (a + d) SEQ ltac:(lia) ltac:(lia)). lia. }
    - rewrite E in *. lia.
    - assert (SEQ * ((a + d) / SEQ) >= SEQ * (a / SEQ) + SEQ)%N by nia. lia.
  Qed.
End C40.

(** ** Example: the fragments of [ex_lp] arrive in another order, one twice, with a stray one *)
Definition ex_block (l : list N) : option (list N) := Some l.
Definition ex_sent : list lp := snd (assign_sequences (SEQ - 3) ex_frags).
Definition ex_recv (j : nat) : ra_ev := RaRecv 1 (nth j ex_sent lp_empty).
Definition ex_stray : ra_ev := RaRecv 2 (nth 1 ex_sent lp_empty).
Example C40_ex :
  (fun '(s, o) => (map fst (map_to_list (ra_parts s)), map (fun x => match x with RPacket l q => Some (bool_decide (l = ex_net), bool_decide (Some q = head ex_sent)) | _ => None end) o)) <$>
    ra_run ex_block (ra_new 400 500000000 0) [ex_recv 3; ex_recv 0; ex_stray; ex_recv 3; ex_recv 4; ex_recv 1; ex_recv 2; ex_recv 2] =
  Some ([(1, SEQ - 2); (2, SEQ - 2)]%N, [None; None; None; None; None; None; Some (true, true); None]).
Proof. vm_compute. done. Qed.
Example C40_ex_hyps : fragment_packet 400 ex_lp 120 = Some (Some ex_frags) /\ ex_frags <> [ex_lp] /\
  map lp_seq ex_sent = [Some (SEQ - 2); Some (SEQ - 1); Some 0; Some 1; Some 2]%N.
Proof. vm_compute. done. Qed.

(** * C42: what a reassembler delivers *)
Section C42.
  Variable block : list N -> option (list N).

  (** A network packet is delivered when a LpPacket arrives that is a whole packet, or that completes a
      message: one fragment of each number, all from the same endpoint, of the same message and with the same count, and all
      received since the message was last delivered or given up. *)
  Theorem C42_delivered m t z h s e s' b first :
    ra_hist block (ra_new m t z) h s -> ra_ok s e -> ra_step block s e = Some (s', RPacket b first) ->
    exists ep p, e = RaRecv ep p /\
      (is_whole p /\ first = p /\ s' = s /\ (exists net, lp_frag p = Some net /\ block net = Some b) \/
       ~ is_whole p /\ exists key pkts pieces,
         N.of_nat (length pkts) = count_of p /\ fst key = ep /\ p ∈ pkts /\ pkts !! 0%nat = Some first /\
         (forall j q, pkts !! j = Some q -> index_of q = N.of_nat j /\ count_of q = count_of p /\ belongs ep q key /\ (q <> p -> since key h q)) /\
         map lp_frag pkts = map Some pieces /\ block (concat pieces) = Some b /\
         ra_parts s' = delete key (ra_parts s)).
  Proof.
    intros H Hok Hst. pose proof (hist_inv _ _ _ _ _ _ H) as I. pose proof (hist_since _ _ _ _ _ _ H) as S.
    destruct e as [ep p|k|mx t'|d]; [|by injection Hst..]. exists ep, p. split; [done|]. simpl in Hst. apply receive_cases in Hst; [|done|done].
    inversion Hst as [|net Hw Hm Hf E1 E2| |key pp o Hr Hw Hb Hk Hp Ec Hn Hpp -> Ho Hx|key pp ps pieces f0 s1 o1 Hr Hw Hb Hk Hp Ec Hn Hpp Ho Eps Hf Hpc Hx]; subst.
    - left. destruct (block net) as [b'|] eqn:Eb; [|done]. injection E2 as -> ->. split; [done|]. split; [done|]. split; [done|]. by exists net.
    - right. split; [done|]. destruct (block (concat pieces)) as [b'|] eqn:Eb; destruct Hx as [-> [=]]. subst b' f0.
      pose proof (po_len _ _ Ho) as HL. rewrite Eps in HL. simpl in HL. rewrite fmap_length, Ec in HL.
      assert (Hfr : forall j q, ps !! j = Some q -> pp_frags (put_frag (index_of p) p pp) !! j = Some (Some q)) by (intros j q Hj; rewrite Eps; by rewrite (list_lookup_fmap Some), Hj).
      exists key, ps, pieces. split; [done|]. split; [done|]. split; [|split; [done|split; [|split; [done|split; [done|done]]]]].
      + assert (pp_frags (put_frag (index_of p) p pp) !! N.to_nat (index_of p) = Some (Some p)) as Hj by (simpl; apply list_lookup_insert; by eapply lookup_lt_Some).
        rewrite Eps, (list_lookup_fmap Some) in Hj. destruct (ps !! N.to_nat (index_of p)) as [x|] eqn:Ex; [|done]. injection Hj as ->. by eapply elem_of_list_lookup_2.
      + intros j q Hj. apply Hfr in Hj. destruct (po_frag _ _ Ho j q Hj) as (Q1 & Q2 & _ & Q3 & _). split; [done|]. split; [simpl in Q2; congruence|]. split; [done|].
        intros Hqp. simpl in Hj. apply list_lookup_insert_Some in Hj as [(_ & [= ?] & _)|(_ & Hj)]; [done|].
        destruct Hp as [Hp|[_ ->]]; [by eapply S|by apply lookup_replicate in Hj as [? _]].
  Qed.

  (** no assertion of the reassembler fails, whatever arrives *)
  Theorem C42_defined m t z h s ep p : ra_hist block (ra_new m t z) h s -> ra_ok s (RaRecv ep p) -> lp_frag p <> None ->
    ra_step block s (RaRecv ep p) <> None.
  Proof. intros H. apply receive_defined. by eapply hist_inv. Qed.

  (** the fragment number [j] of message [key] is held *)
  Definition holds (s : ra) (key : ra_key) (j : N) (q : lp) : Prop :=
    exists pp, ra_parts s !! key = Some pp /\ pp_frags pp !! N.to_nat j = Some (Some q).
  (** a partial packet of message [key], which is to have [c] fragments and is given up at [t] *)
  Definition collecting (s : ra) (key : ra_key) (c : N) (t : Z) : Prop :=
    exists pp, ra_parts s !! key = Some pp /\ pp_count pp = c /\ pp_timer pp = Some t.

  (** LpPackets that make no sense, that disagree with what is held, or are there already, change nothing *)
  Theorem C42_dropped m t z h s ep p s' o key :
    ra_hist block (ra_new m t z) h s -> ra_ok s (RaRecv ep p) -> ra_step block s (RaRecv ep p) = Some (s', o) ->
    (count_of p <= index_of p)%N \/ (ra_max s < count_of p)%N \/ ~ is_whole p /\ lp_seq p = None \/
    ~ is_whole p /\ belongs ep p key /\ ((exists c t', collecting s key c t' /\ c <> count_of p) \/ exists q, holds s key (index_of p) q) ->
    s' = s /\ o = RNone.
  Proof.
    intros H Hok Hst Hbad. pose proof (hist_inv _ _ _ _ _ _ H) as I. simpl in Hst. apply receive_cases in Hst; [|done|done].
    assert (Hi : (index_of p < SEQ)%N) by (unfold index_of; destruct Hok as [_ Hi]; destruct (lp_idx p); [by apply Hi|done]).
    assert (Hcon : forall key' pp, (index_of p < count_of p <= ra_max s)%N -> ~ is_whole p -> belongs ep p key' ->
      ra_parts s !! key' = Some pp \/ ra_parts s !! key' = None /\ pp = blank (count_of p) ->
      pp_count pp = count_of p -> pp_frags pp !! N.to_nat (index_of p) = Some None -> False).
    { intros key' pp Hr Hw Hb Hp Hc Hn. destruct Hbad as [?|[?|[(_ & Hnone)|(_ & Hb' & Hx)]]]; [lia|lia|destruct Hb as (? & ? & _); congruence|].
      assert (key' = key) as -> by (by eapply belongs_fun).
      destruct Hx as [(c & t' & (pp' & Hpp' & Hc' & _) & Hne)|(q & pp' & Hpp' & Hq)]; (destruct Hp as [Hp|[Hp _]]; [|congruence]); congruence. }
    destruct Hst as [|net Hw Hm Hf| |key' pp o Hr Hw Hb Hk Hp Ec Hn Hpp -> Ho Hx|key' pp ps pieces f0 s1 o1 Hr Hw Hb Hk Hp Ec Hn Hpp Ho Eps Hf Hpc Hx]; [done| |done| |].
    - exfalso. destruct Hw as [W1 W2]. destruct Hbad as [?|[?|[([] & _)|([] & _)]]]; [lia|lia|done..].
    - exfalso. by eapply Hcon.
    - exfalso. by eapply Hcon.
  Qed.

  (** Any other fragment is held and restarts the drop timer, unless it is the last one missing *)
  Theorem C42_held m t z h s ep p s' o key :
    ra_hist block (ra_new m t z) h s -> ra_ok s (RaRecv ep p) -> ra_step block s (RaRecv ep p) = Some (s', o) ->
    (index_of p < count_of p <= ra_max s)%N -> ~ is_whole p -> belongs ep p key ->
    (forall c t', collecting s key c t' -> c = count_of p) -> (forall q, ~ holds s key (index_of p) q) ->
    (exists j, (j < count_of p)%N /\ j <> index_of p /\ forall q, ~ holds s key j q) ->
    o = RNone /\ collecting s' key (count_of p) (ra_now s + ra_timeout s) /\
    forall key' j q, holds s' key' j q <-> holds s key' j q \/ key' = key /\ j = index_of p /\ q = p.
  Proof.
    intros H Hok Hst Hr Hw Hb Hc Hq (j & Hj & Hji & Hjn). pose proof (hist_inv _ _ _ _ _ _ H) as I. simpl in Hst. apply receive_cases in Hst; [|done|done].
    assert (Hi : (index_of p < SEQ)%N) by (unfold index_of; destruct Hok as [_ Hi]; destruct (lp_idx p); [by apply Hi|done]).
    destruct Hst as [Hbad|net Hw' Hm Hf|key' pp _ _ Hb' Hp Hd|key' pp o _ _ Hb' Hk Hp Ec Hn Hpp -> Ho Hx|key' pp ps pieces f0 s1 o1 _ _ Hb' Hk Hp Ec Hn Hpp Ho Eps Hf Hpc Hx].
    - exfalso. destruct Hb as (? & ? & _). destruct Hbad as [?|[?|[_ ?]]]; [lia|lia|congruence].
    - done.
    - exfalso. assert (key' = key) as -> by (by eapply belongs_fun). destruct Hd as [Hd|[q Hd]]; [|eapply Hq; by exists pp].
      destruct (I _ _ Hp) as [_ Ht]. destruct (pp_timer pp) as [t'|] eqn:Et; [|done]. apply Hd. eapply (Hc (pp_count pp) t'). by exists pp.
    - assert (key' = key) as -> by (by eapply belongs_fun). split; [done|]. split.
      { exists (put_timer (ra_now s + ra_timeout s) (put_frag (index_of p) p pp)). simpl. by rewrite lookup_insert. }
      intros k i q. unfold holds. simpl. destruct (decide (k = key)) as [->|Hne].
      + rewrite lookup_insert. split.
        * intros (pp' & [= <-] & Hl). simpl in Hl. apply list_lookup_insert_Some in Hl as [(E & [= <-] & _)|(E & Hl)]; [right; split; [done|]; split; [lia|done]|].
          left. destruct Hp as [Hp|[_ ->]]; [eauto|by apply lookup_replicate in Hl as [? _]].
        * intros [(pp' & Hp' & Hl)|(_ & -> & ->)]; (eexists; split; [done|]); simpl.
          -- destruct Hp as [Hp|[Hp _]]; [|congruence]. rewrite Hp' in Hp. injection Hp as ->. rewrite list_lookup_insert_ne; [done|]. intros E. congruence.
          -- apply list_lookup_insert. by eapply lookup_lt_Some.
      + rewrite lookup_insert_ne by done. split; [by left|]. intros [?|[? _]]; done.
    - exfalso. assert (key' = key) as -> by (by eapply belongs_fun). pose proof (po_len _ _ Ho) as HL. simpl in HL. rewrite insert_length, Ec in HL.
      assert (exists q, pp_frags (put_frag (index_of p) p pp) !! N.to_nat j = Some (Some q)) as [q Hl].
      { rewrite Eps, (list_lookup_fmap Some). assert (N.to_nat j < length ps)%nat as [q ->]%lookup_lt_is_Some_2; [|by exists q].
        rewrite <- (fmap_length Some ps). change (Some <$> ps) with (map Some ps). rewrite <- Eps. simpl. rewrite insert_length. lia. }
      simpl in Hl. rewrite list_lookup_insert_ne in Hl by lia. destruct Hp as [Hp|[_ ->]]; [|by apply lookup_replicate in Hl as [? _]]. eapply Hjn. by exists pp.
  Qed.

  (** a partial packet is kept, with its deadline, until a fragment is added to it, it is completed, or it
      is given up at its deadline *)
  Theorem C42_timeout m t z h s e s' o key c d :
    ra_hist block (ra_new m t z) h s -> ra_ok s e -> ra_step block s e = Some (s', o) -> collecting s key c d ->
    collecting s' key c d \/
    (collecting s' key c (ra_now s + ra_timeout s) /\ exists ep p, e = RaRecv ep p /\ belongs ep p key /\ holds s' key (index_of p) p /\ forall q, ~ holds s key (index_of p) q) \/
    (ra_parts s' !! key = None /\ delivers key (e, o)) \/
    (ra_parts s' !! key = None /\ e = RaTimer key /\ (d <= ra_now s)%Z).
  Proof.
    intros H Hok Hst (pp & Hpp & Hc & Hd). pose proof (hist_inv _ _ _ _ _ _ H) as I.
    assert (Hsame : ra_parts s' !! key = ra_parts s !! key -> collecting s' key c d) by (intros E; exists pp; by rewrite E).
    destruct e as [ep p|k|mx t'|dd]; simpl in Hst.
    - apply receive_cases in Hst; [|done|done]. destruct Hst as [|net Hw' Hm Hf| |key' pp' o Hr Hw Hb' Hk Hp Ec Hn Hpp' -> Ho Hx|key' pp' ps pieces f0 s1 o1 Hr Hw Hb' Hk Hp Ec Hn Hpp' Ho Eps Hf Hpc Hx];
        [by left; apply Hsame..| |].
      + destruct (decide (key' = key)) as [->|Hne]; [|left; apply Hsame; simpl; by rewrite lookup_insert_ne].
        destruct Hp as [Hp|[Hp _]]; [|congruence]. rewrite Hpp in Hp. injection Hp as <-. right; left. split.
        * exists (put_timer (ra_now s + ra_timeout s) (put_frag (index_of p) p pp)). simpl. by rewrite lookup_insert.
        * exists ep, p. split; [done|]. split; [done|]. split.
          -- exists (put_timer (ra_now s + ra_timeout s) (put_frag (index_of p) p pp)). simpl. rewrite lookup_insert. split; [done|]. apply list_lookup_insert. by eapply lookup_lt_Some.
          -- intros q (pp' & Hp' & Hq). congruence.
      + destruct (decide (key' = key)) as [->|Hne]; [|left; apply Hsame; destruct (block (concat pieces)); destruct Hx as [-> ->]; simpl; [by rewrite lookup_delete_ne|by rewrite lookup_insert_ne]].
        destruct Hp as [Hp|[Hp _]]; [|congruence]. rewrite Hpp in Hp. injection Hp as <-.
        destruct (block (concat pieces)); destruct Hx as [-> ->].
        * right; right; left. simpl. rewrite lookup_delete. split; [done|]. unfold delivers. by eexists _, _, _, _.
        * left. eexists. simpl. rewrite lookup_insert. done.
    - injection Hst as <- <-. destruct (decide (k = key)) as [->|Hne]; [|left; apply Hsame; simpl; by rewrite lookup_delete_ne].
      right; right; right. simpl. rewrite lookup_delete. split; [done|]. split; [done|]. destruct Hok as (pp' & t' & Hp' & Ht' & Hle). rewrite Hpp in Hp'. injection Hp' as <-. congruence.
    - injection Hst as <- <-. left. by apply Hsame.
    - injection Hst as <- <-. left. by apply Hsame.
  Qed.
  (** and every partial packet has such a deadline *)
  Theorem C42_deadline m t z h s key : ra_hist block (ra_new m t z) h s -> ra_parts s !! key <> None -> exists c d, collecting s key c d.
  Proof.
    intros H Hp. destruct (ra_parts s !! key) as [pp|] eqn:E; [|done]. destruct (hist_inv _ _ _ _ _ _ H _ _ E) as [_ Ht].
    destruct (pp_timer pp) as [d|] eqn:Ed; [|done]. by exists (pp_count pp), d, pp.
  Qed.
End C42.

(** ** Example: fragments with another count, from another endpoint or twice do not join *)
Example C42_ex :
  (fun '(s, o) => (map (fun '(k, pp) => (k, pp_recv pp, pp_timer pp)) (map_to_list (ra_parts s)), map (fun x => match x with RNone => 0%N | RPacket _ _ => 1%N | RError => 2%N end) o)) <$>
    ra_run ex_block (ra_new 400 500000000 0)
      [ex_recv 0; ex_recv 1; RaTick 5; ex_recv 1; RaRecv 1 (set_fcnt (Some 3%N) (nth 2 ex_sent lp_empty)); ex_stray; ex_recv 2; ex_recv 3; RaTimer (1, SEQ - 2)%N; ex_recv 4] =
  Some ([((1, SEQ - 2), 1, Some 500000005%Z); ((2, SEQ - 2), 1, Some 500000005%Z)], [0; 0; 0; 0; 0; 0; 0; 0; 0; 0])%N.
Proof. vm_compute. done. Qed.

Print Assumptions C41_defined. Print Assumptions C41_whole. Print Assumptions C41_fragments. Print Assumptions C41_fits. Print Assumptions C41_refused.
Print Assumptions C40_roundtrip. Print Assumptions C40_incomplete. Print Assumptions C40_whole. Print Assumptions C40_distinct.
Print Assumptions C42_delivered. Print Assumptions C42_dropped. Print Assumptions C42_held. Print Assumptions C42_timeout. Print Assumptions C42_deadline. Print Assumptions C42_defined.
