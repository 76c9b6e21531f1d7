(** The fragmenter. *)
From stdpp Require Import gmap.
From Verif Require Import Lib Lp_Model Lp_Spec.

Lemma var_size_range n : (1 <= var_size n <= 9)%N.
Proof. unfold var_size. repeat case_match; lia. Qed.
Lemma nni_size_range n : (1 <= nni_size n <= 8)%N.
Proof. unfold nni_size. repeat case_match; lia. Qed.
Lemma tlv_pos t l : (2 <= tlv_size t l)%N.
Proof. unfold tlv_size. pose proof (var_size_range t). pose proof (var_size_range l). lia. Qed.
Lemma tlv_short t l : (t < 253)%N -> (l <= 8)%N -> tlv_size t l = (2 + l)%N.
Proof. intros H1 H2. unfold tlv_size, var_size. destruct (N.ltb_spec t 253), (N.ltb_spec l 253); lia. Qed.
Lemma tlv_le t l : (t < 253)%N -> (tlv_size t l <= 10 + l)%N.
Proof. intros H1. unfold tlv_size. pose proof (var_size_range l). unfold var_size at 1. destruct (N.ltb_spec t 253); lia. Qed.

Lemma int_size_le t x : (t < 253)%N -> (int_size t x <= 10)%N.
Proof. intros Ht. destruct x as [n|]; simpl; [|lia]. pose proof (nni_size_range n). rewrite tlv_short by lia. lia. Qed.
Lemma fix_size_le t x : (t < 253)%N -> (fix_size t x <= 10)%N.
Proof. intros Ht. destruct x as [n|]; simpl; [|lia]. rewrite tlv_short by lia. lia. Qed.

Lemma wire_le p l : lp_frag p = Some l -> (wire_size p <= hdr_size p + len l + 20)%N.
Proof.
  intros Hf. unfold wire_size. rewrite Hf. case_match; [lia|].
  pose proof (tlv_le T_LPPACKET (hdr_size p + tlv_size T_FRAGMENT (len l)) ltac:(done)).
  pose proof (tlv_le T_FRAGMENT (len l) ltac:(done)). lia.
Qed.

(** the header size of a fragment, with or without a Sequence *)
Lemma frag_hdr first i c l sq :
  lp_idx first = None -> lp_cnt first = None ->
  let q := set_frag (Some l) (set_fcnt (Some c) (set_idx (Some i) first)) in
  (hdr_size (set_seq (Some sq) q) <= hdr_size first + 30)%N /\ (hdr_size q <= hdr_size first + 20)%N.
Proof.
  intros Hi Hc. simpl. unfold hdr_size. simpl. rewrite Hi, Hc. simpl.
  rewrite (tlv_short T_FRAGINDEX), (tlv_short T_FRAGCOUNT), (tlv_short T_SEQUENCE) by (done || apply nni_size_range).
  pose proof (nni_size_range i). pose proof (nni_size_range c). destruct (lp_seq first); simpl; [rewrite (tlv_short T_SEQUENCE) by done|]; lia.
Qed.

Definition ceil (x d : N) : N := (x / d + if (x mod d =? 0)%N then 0 else 1)%N.
Lemma ceil_step x d : (0 < d)%N -> (0 < x)%N -> ceil x d = (1 + ceil (x - d) d)%N.
Proof.
  intros Hd Hx. unfold ceil. destruct (N.lt_ge_cases x d) as [Hl|Hl].
  - rewrite N.div_small, N.mod_small by done. replace (x - d)%N with 0%N by lia. rewrite N.div_0_l, N.mod_0_l by lia.
    destruct (N.eqb_spec x 0); simpl; lia.
  - assert (x = (x - d) + 1 * d)%N as E by lia. rewrite E at 1 2. rewrite N.div_add, N.mod_add by lia. lia.
Qed.
Lemma ceil_0 d : ceil 0 d = 0%N.
Proof. unfold ceil. destruct d; [done|]. by rewrite N.div_0_l, N.mod_0_l by lia. Qed.
Lemma ceil_le x d k : (0 < d)%N -> (ceil x d <= k <-> x <= k * d)%N.
Proof.
  intros Hd. unfold ceil. pose proof (N.div_mod' x d). pose proof (N.mod_lt x d ltac:(lia)).
  destruct (N.eqb_spec (x mod d) 0); split; nia.
Qed.

Definition need (b payload n : N) : N := if (n =? 0)%N then 0 else (1 + ceil (n - b) payload)%N.

Lemma len_drop k l : len (drop k l) = (len l - N.of_nat k)%N.
Proof. unfold len. rewrite drop_length. lia. Qed.

Record filled (index count : N) (first : lp) (rest : list N) (mtu : N) (l : list lp) : Prop := {
  fd_number : forall i q, l !! i = Some q -> lp_idx q = Some (index + N.of_nat i)%N /\ lp_cnt q = Some count;
  fd_first : forall q, l !! 0%nat = Some q -> other_fields q = other_fields first;
  fd_rest : forall i q, l !! S i = Some q -> other_fields q = lp_empty;
  fd_pieces : exists pieces, map lp_frag l = map Some pieces /\ concat pieces = rest /\ forall x, x ∈ pieces -> x <> [];
  fd_fits : forall q sq, q ∈ l -> exists d, lp_frag q = Some d /\ (hdr_size (set_seq (Some sq) q) + len d + 20 <= mtu)%N;
  fd_len : (index + N.of_nat (length l) = count)%N;
}.

Lemma fill_ok n : forall first index count payload mtu b rest,
  lp_idx first = None -> lp_cnt first = None ->
  (0 < b)%N -> (0 < payload)%N -> (50 + hdr_size first + b <= mtu)%N -> (50 + payload <= mtu)%N ->
  (index + need b payload (len rest) = count)%N -> N.of_nat n = (count - index)%N ->
  exists l, fill n first index count payload mtu b rest = Some l /\ filled index count first rest mtu l.
Proof.
  induction n as [|n IH]; intros first index count payload mtu b rest Hi Hc Hb Hp Hm1 Hm2 Hneed Hn.
  - destruct rest as [|x rest]; simpl.
    + exists []. change (need b payload (len [])) with 0%N in Hneed. destruct (N.eqb_spec index count); [|lia]. split; [done|].
      split; [done..| |by intros q sq ?%elem_of_nil|simpl; lia]. exists []. split; [done|]. split; [done|]. by intros ? ?%elem_of_nil.
    + unfold need in Hneed. unfold len in Hneed. simpl length in Hneed. destruct (N.eqb_spec (N.of_nat (S (length rest))) 0); lia.
  - destruct rest as [|x rest'] eqn:Er.
    + change (need b payload (len [])) with 0%N in Hneed. lia.
    + assert (Hpos : (0 < len rest)%N) by (rewrite Er; unfold len; simpl; lia). rewrite <- Er in *. clear Er x rest'.
      cbn [fill]. set (q := set_frag (Some (take (N.to_nat b) rest)) (set_fcnt (Some count) (set_idx (Some index) first))).
      assert (Hlen : (len (take (N.to_nat b) rest) <= b)%N) by (unfold len; rewrite take_length; lia).
      assert (Hq : forall sq, exists d, lp_frag q = Some d /\ (hdr_size (set_seq (Some sq) q) + len d + 20 <= mtu)%N).
      { intros sq. destruct (frag_hdr first index count (take (N.to_nat b) rest) sq Hi Hc) as [H1 _]. fold q in H1.
        eexists. split; [reflexivity|]. lia. }
      assert (Hq0 : (wire_size q <= mtu)%N).
      { destruct (frag_hdr first index count (take (N.to_nat b) rest) 0%N Hi Hc) as [_ H1]. fold q in H1.
        pose proof (wire_le q (take (N.to_nat b) rest) eq_refl). lia. }
      destruct (N.ltb_spec mtu (wire_size q)); [lia|].
      unfold need in Hneed. destruct (N.eqb_spec (len rest) 0); [lia|].
      destruct (IH lp_empty (index + 1)%N count payload mtu payload (drop (N.to_nat b) rest)) as (l & El & F); try done.
      * unfold need. rewrite len_drop, N2Nat.id. destruct (N.eqb_spec (len rest - b) 0) as [E|E]; [rewrite E, ceil_0 in Hneed; lia|].
        rewrite ceil_step in Hneed by lia. lia.
      * lia.
      * assert (exists x r, rest = x :: r) as (x & r & ->) by (destruct rest; [done|eauto]). rewrite El. exists (q :: l). split; [done|].
        destruct F as [F1 F2 F3 (ps & F4 & F5 & F6) F7 F8]. split.
        -- intros [|i] q'; simpl; [intros [= <-]; simpl; split; [f_equal; lia|done]|]. intros Hl. destruct (F1 i q' Hl) as [-> ->]. split; [f_equal; lia|done].
        -- intros q' [= <-]. done.
        -- intros [|i] q'; simpl; intros Hl; [by apply F2 in Hl|by eapply F3].
        -- exists (take (N.to_nat b) (x :: r) :: ps). simpl. rewrite F4, F5. split; [done|]. split; [apply take_drop|]. intros y [->|Hy]%elem_of_cons; [|by apply F6].
           destruct (N.to_nat b) eqn:Eb; [lia|done].
        -- intros q' sq [->|Hin]%elem_of_cons; [done|by apply F7].
        -- simpl. lia.
Qed.

Definition count_frags (p : lp) (net : list N) (mtu : N) : N :=
  (1 + ceil (len net - N.min (len net) (mtu - hdr_size p - MAX_FRAG_OVERHEAD)) (mtu - MAX_FRAG_OVERHEAD))%N.

Lemma fragment_cases max p net mtu :
  lp_frag p = Some net -> net <> [] -> lp_idx p = None -> lp_cnt p = None ->
  (30 + wire_size p <= mtu /\ fragment_packet max p mtu = Some (Some [p]))%N \/
  (mtu < 30 + wire_size p /\
   ((mtu < 51 + hdr_size p)%N /\ fragment_packet max p mtu = Some None \/
    (51 + hdr_size p <= mtu)%N /\
      ((max < count_frags p net mtu)%N /\ fragment_packet max p mtu = Some None \/
       (count_frags p net mtu <= max)%N /\
       exists l, fragment_packet max p mtu = Some (Some l) /\ filled 0 (count_frags p net mtu) p net mtu l /\ (2 <= length l)%nat)))%N.
Proof.
  intros Hf Hne Hi Hc. unfold fragment_packet. rewrite Hf, Hi, Hc. unfold MAX_SINGLE_FRAG_OVERHEAD.
  change (1 + 9 + (1 + 1 + 8) + (1 + 9))%N with 30%N. destruct (N.leb_spec (30 + wire_size p) mtu); [by left|right]. split; [lia|].
  unfold count_frags. unfold MAX_FRAG_OVERHEAD in *. change (1 + 9 + (1 + 1 + 8) + (1 + 1 + 8) + (1 + 1 + 8) + (1 + 9))%N with 50%N in *.
  destruct (N.ltb_spec mtu (50 + hdr_size p + 1)) as [Hm|Hm]; [left; split; [lia|done]|right]. split; [lia|].
  fold (ceil (len net - N.min (len net) (mtu - hdr_size p - 50)) (mtu - 50)) .
  set (b := N.min (len net) (mtu - hdr_size p - 50)). rewrite <- N.add_assoc. fold (ceil (len net - b) (mtu - 50)).
  set (c := (1 + ceil (len net - b) (mtu - 50))%N). destruct (N.ltb_spec max c) as [Hx|Hx]; [left; split; [lia|done]|right]. split; [lia|].
  assert (Hl : (0 < len net)%N) by (unfold len; destruct net; [done|simpl; lia]).
  destruct (fill_ok (N.to_nat c) p 0 c (mtu - 50) mtu b net) as (l & El & F); try done; try lia.
  - unfold need. destruct (N.eqb_spec (len net) 0); lia.
  - exists l. rewrite El. split; [done|]. split; [done|]. pose proof (fd_len _ _ _ _ _ _ F) as HL.
    assert (Hb : (b < len net)%N).
    { destruct (N.lt_ge_cases (mtu - hdr_size p - 50) (len net)); [lia|]. pose proof (wire_le p net Hf). lia. }
    assert (1 <= ceil (len net - b) (mtu - 50))%N by (rewrite ceil_step by lia; lia). lia.
Qed.

Lemma filled_fragments p net mtu c l : filled 0 c p net mtu l -> fragments p net l.
Proof.
  intros [F1 F2 F3 F4 F5 F6]. split; try done. intros i q H. destruct (F1 i q H) as [-> ->]. split; [f_equal; lia|f_equal; lia].
Qed.

Lemma count_least p net mtu : (51 + hdr_size p <= mtu)%N -> net <> [] ->
  least (fun k => enough k (mtu - 50) (hdr_size p) (len net)) (count_frags p net mtu).
Proof.
  intros Hm Hne. unfold count_frags, enough. change MAX_FRAG_OVERHEAD with 50%N.
  set (b := N.min (len net) (mtu - hdr_size p - 50)).
  assert (forall k, (1 <= k -> (1 + ceil (len net - b) (mtu - 50) <= k <-> len net + hdr_size p <= k * (mtu - 50)))%N) as H.
  { intros k Hk. pose proof (ceil_le (len net - b) (mtu - 50) (k - 1) ltac:(lia)) as Hc. 
    assert (k * (mtu - 50) = (k - 1) * (mtu - 50) + (mtu - 50))%N as ->.
    { assert (exists j, k = j + 1)%N as [j ->] by (exists (k - 1)%N; lia). rewrite N.add_sub, N.mul_add_distr_r. lia. }
    set (X := ((k - 1) * (mtu - 50))%N) in *. clearbody X. split; [intros Hle|intros Hle].
    - assert (ceil (len net - b) (mtu - 50) <= k - 1)%N as Hle' by lia. apply Hc in Hle'. lia.
    - assert (len net - b <= X)%N as Hle' by lia. apply Hc in Hle'. lia. }
  split.
  - split; [lia|]. apply H; lia.
  - intros j [Hj1 Hj2]. by apply H.
Qed.

(** what is left of the MTU: with a Sequence, 20 octets more than the fields and the payload *)
Lemma fragment_room max p net mtu l q sq :
  lp_frag p = Some net -> net <> [] -> lp_idx p = None -> lp_cnt p = None ->
  fragment_packet max p mtu = Some (Some l) -> q ∈ l ->
  exists d, lp_frag q = Some d /\ (hdr_size (set_seq (Some sq) q) + len d + 20 <= mtu)%N.
Proof.
  intros Hnet Hne Hi Hc E Hq. destruct (fragment_cases max p net mtu Hnet Hne Hi Hc) as [[Hle E']|(? & [[_ E']|(Hm & [[_ E']|(Hx & l' & E' & F & H2)])])]; rewrite E' in E; try congruence.
  - injection E as <-. apply elem_of_list_singleton in Hq as ->. exists net. split; [done|].
    assert (hdr_size (set_seq (Some sq) p) <= hdr_size p + 10)%N. { unfold hdr_size. simpl. rewrite (tlv_short T_SEQUENCE) by done. lia. }
    assert (hdr_size p + len net <= wire_size p)%N.
    { unfold wire_size. rewrite Hnet. case_match eqn:E1; [apply N.eqb_eq in E1; lia|]. unfold tlv_size. lia. } lia.
  - injection E as ->. by eapply fd_fits.
Qed.
