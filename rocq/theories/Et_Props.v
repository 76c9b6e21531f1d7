(** C77: Ethernet frames, packet filters and faces. *)
From Coq Require Import String Ascii.
From Verif Require Import Lib Fm_Model Lp_Model Tp_Model Tp_Spec Tp_Proof Et_Model Et_Spec Et_Proof.
Open Scope list_scope.

(** ** Frames *)
Lemma frame_shape dst src b : frame dst src b = dst ++ src ++ [134; 36]%N ++ b ++ replicate (46 - length b) 0%N.
Proof.
  unfold frame, MIN_DATA_LEN. change [ETHERTYPE_NDN / 256; ETHERTYPE_NDN mod 256]%N with [134; 36]%N. destruct (Nat.ltb_spec (length b) 46) as [H|H].
  - by rewrite drop_replicate.
  - replace (46 - length b) with 0 by lia. by rewrite app_nil_r.
Qed.
(** The frame that carries a packet is a frame of type 0x8624 from the interface to the remote address; its payload is the packet, with zeroes after it up to 46 octets if it is shorter. *)
Theorem C77_frame dst src b :
  length dst = 6 -> length src = 6 ->
  exists payload, is_frame (frame dst src b) dst src NDN_TYPE payload /\ take (length b) payload = b /\ length payload = Nat.max 46 (length b) /\
    forall i o, length b <= i -> payload !! i = Some o -> o = 0%N.
Proof.
  intros Hd Hs. exists (b ++ replicate (46 - length b) 0%N). split; [|split; [|split]].
  - exists 134%N, 36%N. rewrite frame_shape. done.
  - by rewrite take_app.
  - rewrite app_length, replicate_length. lia.
  - intros i o Hi. rewrite lookup_app_r by done. rewrite lookup_replicate. by intros [-> _].
Qed.
Lemma fields p dst src type payload : is_frame p dst src type payload ->
  f_dst p = dst /\ f_src p = src /\ f_type 0 p = type /\ drop 14 p = payload /\ length p = 14 + length payload.
Proof.
  intros (hi & lo & -> & Hd & Hs & ->). unfold f_dst, f_src, f_type. split; [by rewrite take_app_alt|].
  rewrite drop_app_alt by done. split; [by rewrite take_app_alt|]. split; [|split].
  - rewrite app_assoc. rewrite drop_app_alt by (rewrite app_length; lia). cbn. rewrite take_0. cbn. lia.
  - rewrite !app_assoc. rewrite drop_app_alt; [done|]. rewrite !app_length. cbn. lia.
  - rewrite !app_length. cbn. lia.
Qed.
(** Every frame of at least 14 octets has these fields. *)
Theorem C77_fields p : 14 <= length p -> exists dst src type payload, is_frame p dst src type payload.
Proof.
  intros H. exists (take 6 p), (take 6 (drop 6 p)).
  destruct (drop 12 p) as [|hi [|lo r]] eqn:E; [apply (f_equal length) in E; rewrite drop_length in E; cbn in E; lia..|].
  exists (hi * 256 + lo)%N, r, hi, lo. rewrite !take_length, drop_length. split; [|split; [lia|split; [lia|done]]].
  rewrite <-(take_drop 6 p) at 1. f_equal. rewrite <-(take_drop 6 (drop 6 p)) at 1. f_equal. rewrite drop_drop. done.
Qed.
(** A frame is taken exactly if it has at least 60 octets and the type of NDN and, where assertions are compiled, was not sent by this host and has the address of the face or channel. *)
Theorem C77_header debug local dest p dst src type payload sender :
  is_frame p dst src type payload ->
  check_header debug local dest p = Some sender <->
  (60 <= length p /\ type = NDN_TYPE /\ (debug = true -> src <> local /\ dst = dest) /\ sender = src).
Proof.
  intros Hf. destruct (fields _ _ _ _ _ Hf) as (E1 & E2 & E3 & _ & _). unfold check_header. rewrite E1, E2, E3. unfold HDR_LEN, MIN_DATA_LEN, NDN_TYPE, ETHERTYPE_NDN.
  destruct (Nat.ltb_spec (length p) (14 + 46)); [split; [done|lia]|]. destruct (N.eqb_spec type 34340) as [Ht|Ht]; cbn; [|split; [done|by intros (_ & ? & _)]].
  destruct debug; cbn.
  - case_bool_decide as B1; cbn; [split; [done|]; intros (_ & _ & Hx & _); by destruct (Hx eq_refl)|].
    case_bool_decide as B2; cbn; [|split; [done|]; intros (_ & _ & Hx & _); by destruct (Hx eq_refl)].
    split; [intros [= <-]; split; [lia|done]|]. by intros (_ & _ & _ & ->).
  - split; [intros [= <-]; split; [lia|done]|]. by intros (_ & _ & _ & ->).
Qed.
(** A packet of at most 8800 octets that one host sends arrives unchanged, padding or not: at the unicast face of the addressee, and at every member of the group other than the sender. *)
Theorem C77_round_trip debug dst src local b :
  length dst = 6 -> length src = 6 -> is_tlv b -> (len b <= 8800)%N -> src <> local ->
  let p := capture (frame dst src b) in
  check_header debug local dst p = Some src /\ exists r, from_buffer (drop 14 p) = Some (b, r) /\ Forall (eq 0%N) r.
Proof.
  intros Hd Hs Hb Hl Hne p. unfold len in Hl.
  assert (Hp : p = frame dst src b).
  { unfold p, capture. apply take_ge. rewrite frame_shape, !app_length, replicate_length. unfold HDR_LEN, MAX_PACKET. cbn [length]. lia. }
  destruct (C77_frame dst src b Hd Hs) as (payload & Hf & Ht & Hlen & Hz). rewrite <-Hp in Hf. destruct (fields _ _ _ _ _ Hf) as (_ & _ & _ & E4 & E5). split.
  - apply (C77_header debug local dst p dst src NDN_TYPE payload src Hf). split; [lia|]. done.
  - rewrite E4. exists (drop (length b) payload). split.
    + apply from_buffer_spec. split; [|done]. rewrite <-Ht at 1. by rewrite take_drop.
    + apply Forall_lookup. intros i o. rewrite lookup_drop. intros Hi. symmetry. eapply Hz; [|done]. lia.
Qed.

(** ** Filters *)
Lemma vlan_not type : (type =? 34340)%N = true -> negb ((type =? 33024)%N || (type =? 34984)%N || (type =? 37120)%N) = true.
Proof. intros H. apply N.eqb_eq in H as ->. done. Qed.
(** What a unicast face is given: frames of type 0x8624 from its remote address to the interface. *)
Theorem C77_unicast_filter local remote p dst src type payload :
  is_frame p dst src type payload ->
  passes 0 (unicast_filter local remote) p = true <-> type = NDN_TYPE /\ src = remote /\ dst = local.
Proof.
  intros Hf. destruct (fields _ _ _ _ _ Hf) as (E1 & E2 & E3 & _ & _). cbn [unicast_filter passes]. rewrite E1, E2, E3. unfold NDN_TYPE, ETHERTYPE_NDN.
  destruct (type =? 34340)%N eqn:Et.
  - rewrite vlan_not by done. apply N.eqb_eq in Et. cbn. rewrite !andb_true_r, andb_true_iff, !bool_decide_eq_true. tauto.
  - apply N.eqb_neq in Et. cbn. split; [done|tauto].
Qed.
(** What a multicast face is given: frames of type 0x8624 to its group that this interface did not send. *)
Theorem C77_mcast_filter local group p dst src type payload :
  is_frame p dst src type payload ->
  passes 0 (mcast_filter local group) p = true <-> type = NDN_TYPE /\ dst = group /\ src <> local.
Proof.
  intros Hf. destruct (fields _ _ _ _ _ Hf) as (E1 & E2 & E3 & _ & _). cbn [mcast_filter passes]. rewrite E1, E2, E3. unfold NDN_TYPE, ETHERTYPE_NDN.
  destruct (type =? 34340)%N eqn:Et.
  - rewrite vlan_not by done. apply N.eqb_eq in Et. cbn. rewrite andb_true_r, andb_true_iff, negb_true_iff, bool_decide_eq_true, bool_decide_eq_false. tauto.
  - apply N.eqb_neq in Et. cbn. split; [done|tauto].
Qed.
(** What a channel is given: frames of type 0x8624 to the interface from a host that it has no face for. *)
Theorem C77_channel_filter local peers p dst src type payload :
  is_frame p dst src type payload ->
  passes 0 (channel_filter local peers) p = true <-> type = NDN_TYPE /\ dst = local /\ src ∉ peers.
Proof.
  intros Hf. destruct (fields _ _ _ _ _ Hf) as (E1 & E2 & E3 & _ & _). cbn [channel_filter app passes]. rewrite E1, E3. unfold NDN_TYPE, ETHERTYPE_NDN.
  destruct (type =? 34340)%N eqn:Et; [|apply N.eqb_neq in Et; cbn; split; [done|tauto]].
  assert (Hp : passes 0 (map FNotSrc peers ++ [FNotVlan]) p = true <-> src ∉ peers).
  { induction peers as [|q peers IH]; cbn [map app passes].
    - rewrite E3, vlan_not by done. split; [intros _; apply not_elem_of_nil|done].
    - rewrite E2, andb_true_iff, negb_true_iff, bool_decide_eq_false, IH, not_elem_of_cons. tauto. }
  apply N.eqb_eq in Et. cbn. rewrite andb_true_iff, bool_decide_eq_true, Hp. tauto.
Qed.
(** So a frame of NDN to the interface passes the filter of exactly one of the channel and its unicast faces, and no other frame passes any. *)
Theorem C77_one_taker local peers p dst src type payload :
  NoDup peers -> is_frame p dst src type payload ->
  let takers := List.filter (fun f => passes 0 f p) (channel_filter local peers :: map (unicast_filter local) peers) in
  (type = NDN_TYPE /\ dst = local -> takers = [if bool_decide (src ∈ peers) then unicast_filter local src else channel_filter local peers]) /\
  (~ (type = NDN_TYPE /\ dst = local) -> takers = []).
Proof.
  intros Hnd Hf takers. unfold takers. cbn [List.filter].
  assert (Hu : List.filter (fun f => passes 0 f p) (map (unicast_filter local) peers) = if bool_decide (type = NDN_TYPE /\ dst = local /\ src ∈ peers) then [unicast_filter local src] else []).
  { induction Hnd as [|q peers Hq Hnd IH]; cbn [map List.filter].
    - rewrite bool_decide_eq_false_2; [done|]. intros (_ & _ & Hx). by apply not_elem_of_nil in Hx.
    - rewrite IH. pose proof (C77_unicast_filter local q p dst src type payload Hf) as Hq'. destruct (passes 0 (unicast_filter local q) p).
      + destruct (proj1 Hq' eq_refl) as (H1 & H2 & H3). rewrite bool_decide_eq_false_2 by (intros (_ & _ & Hx); congruence).
        rewrite bool_decide_eq_true_2; [by rewrite H2|]. split; [done|]. split; [done|]. rewrite H2. by left.
      + case_bool_decide as B; case_bool_decide as B'; try done.
        * destruct B' . destruct B as (? & ? & ?). split; [done|]. split; [done|]. by right.
        * destruct B' as (H1 & H2 & H3). apply elem_of_cons in H3 as [H3|H3]; [|by destruct B]. by assert (false = true) by by apply Hq'. }
  pose proof (C77_channel_filter local peers p dst src type payload Hf) as Hc. rewrite Hu. split.
  - intros [H1 H2]. destruct (decide (src ∈ peers)) as [Hin|Hin].
    + rewrite (bool_decide_eq_true_2 (src ∈ peers)) by done. rewrite bool_decide_eq_true_2 by done. destruct (passes 0 _ p); [by destruct (proj1 Hc eq_refl) as (_ & _ & ?)|done].
    + rewrite (bool_decide_eq_false_2 (src ∈ peers)) by done. rewrite bool_decide_eq_false_2 by tauto. destruct (passes 0 _ p); [done|]. by assert (false = true) by by apply Hc.
  - intros Hn. rewrite bool_decide_eq_false_2 by tauto. destruct (passes 0 _ p); [|done]. destruct (proj1 Hc eq_refl) as (? & ? & _). tauto.
Qed.
(** Whatever passes the filter of a face and is long enough passes its check of the header too, unless the face is to the interface itself. *)
Theorem C77_filter_check debug local remote group p dst src type payload :
  is_frame p dst src type payload -> 46 <= length payload ->
  (remote <> local -> passes 0 (unicast_filter local remote) p = true -> check_header debug local local p = Some remote) /\
  (passes 0 (mcast_filter local group) p = true -> check_header debug local group p = Some src).
Proof.
  intros Hf Hl. destruct (fields _ _ _ _ _ Hf) as (_ & _ & _ & _ & E5). split.
  - intros Hne Hp. apply (C77_unicast_filter _ _ _ _ _ _ _ Hf) in Hp as (-> & -> & ->). apply (C77_header _ _ _ _ _ _ _ _ _ Hf). split; [lia|]. done.
  - intros Hp. apply (C77_mcast_filter _ _ _ _ _ _ _ Hf) in Hp as (-> & -> & ?). apply (C77_header _ _ _ _ _ _ _ _ _ Hf). split; [lia|]. done.
Qed.

Lemma str_len_app a b : String.length (a ++ b)%string = String.length a + String.length b.
Proof. induction a as [|c a IH]; [done|]. change (S (String.length (a ++ b)%string) = S (String.length a + String.length b))%nat. by rewrite IH. Qed.
Lemma mac_text_len a : length a = 6 -> String.length (mac_text a) = 17.
Proof. destruct a as [|b1 [|b2 [|b3 [|b4 [|b5 [|b6 [|]]]]]]]; intros; done. Qed.
Lemma hex_digit_spec n : (n < 16)%N -> String.get (N.to_nat n) "0123456789abcdef" = Some (hex_digit n).
Proof. intros H. destruct n as [|p]; [done|]. do 4 (destruct p as [p|p|]; try reflexivity; try lia). Qed.
(** An address is written as its octets, each with two lower-case hexadecimal digits, separated by colons. *)
Theorem C77_mac_text a : octets a -> exists l, Forall2 (fun b t => octet_text b = Some t) a l /\ mac_text a = String.concat ":" l.
Proof.
  induction 1 as [|b a Hb Ha IH]; [exists []; split; [constructor|done]|]. destruct IH as (l & Hl & E).
  assert (Eb : octet_text b = Some (hex2 b)). { unfold octet_text, hex2. rewrite !hex_digit_spec; [done|apply N.mod_lt; lia|apply N.div_lt_upper_bound; lia]. }
  exists (hex2 b :: l). split; [by constructor|]. destruct Hl as [|b' t a l E' Hl]; [done|]. cbn [mac_text String.concat]. cbn [mac_text String.concat] in E. by rewrite E.
Qed.
(** The texts of the filters of faces fit the buffer that they are printed into, whatever the addresses. *)
Theorem C77_filter_text local other :
  length local = 6 -> length other = 6 ->
  String.length (filter_text (unicast_filter local other)) < FILTER_SIZE /\ String.length (filter_text (mcast_filter local other)) < FILTER_SIZE /\
  filter_text (unicast_filter local other) = ("(ether proto 0x8624) && (ether src " ++ mac_text other ++ ") && (ether dst " ++ mac_text local ++ ") && (not vlan)")%string /\
  filter_text (mcast_filter local other) = ("(ether proto 0x8624) && (ether dst " ++ mac_text other ++ ") && (not ether src " ++ mac_text local ++ ") && (not vlan)")%string.
Proof.
  intros Hl Ho. assert (App : forall a b c : string, ((a ++ b) ++ c = a ++ (b ++ c))%string) by (intros a b c; induction a as [|x a IH]; [done|]; exact (f_equal (String x) IH)).
  assert (E1 : filter_text (unicast_filter local other) = ("(ether proto 0x8624) && (ether src " ++ mac_text other ++ ") && (ether dst " ++ mac_text local ++ ") && (not vlan)")%string)
    by (cbn [unicast_filter filter_text fexp_text]; rewrite !App; reflexivity).
  assert (E2 : filter_text (mcast_filter local other) = ("(ether proto 0x8624) && (ether dst " ++ mac_text other ++ ") && (not ether src " ++ mac_text local ++ ") && (not vlan)")%string)
    by (cbn [mcast_filter filter_text fexp_text]; rewrite !App; reflexivity).
  rewrite E1, E2, !str_len_app, !mac_text_len by done. cbn. unfold FILTER_SIZE. split; [lia|]. split; [lia|]. done.
Qed.

(** ** Sending and receiving *)
(** What happens to a packet that is sent: an active transport gives one frame to the kernel; if the kernel refuses it or takes a part of it, the face fails unless it is permanent; only packets
    sent while UP are counted; a transport that is being closed ignores the packet. *)
Theorem C77_send x b sent x' :
  e_debug x = true -> et_send b sent x = Some x' ->
  (Z.of_N (len b) <= e_mtu x)%Z /\
  (~ active (e_state x) -> x' = x) /\
  (active (e_state x) ->
     e_sent x' = e_sent x ++ [frame (e_dst x) (e_src x) b] /\ e_got x' = e_got x /\
     e_nout x' = (e_nout x + if bool_decide (e_state x = TUp) then 1 else 0)%N /\ e_bout x' = (e_bout x + if bool_decide (e_state x = TUp) then len b else 0)%N /\
     let whole := exists n, sent = Some n /\ (len (frame (e_dst x) (e_src x) b) <= n)%N in
     (whole \/ e_pers x = Permanent -> e_state x' = e_state x /\ e_open x' = e_open x) /\
     (~ whole -> e_pers x <> Permanent -> e_state x' = TFailed /\ e_open x' = false)).
Proof.
  intros Hd E. unfold et_send in E. rewrite Hd in E. cbn in E. destruct (Z.ltb_spec (e_mtu x) (Z.of_N (len b))) as [|Hm]; [done|]. split; [done|]. split.
  { intros Ha. unfold active in Ha. destruct (e_state x); naive_solver. }
  intros Ha. set (f := frame (e_dst x) (e_src x) b) in *.
  set (x2 := add_esent f (match e_state x with TUp => add_eout (len b) x | _ => x end)).
  assert (E2 : match sent with None => et_error x2 | Some n => if (n <? len f)%N then et_error x2 else Some x2 end = Some x') by (rewrite <-E; destruct Ha as [Es|Es]; unfold x2; rewrite Es; done).
  assert (Hx2 : e_sent x2 = e_sent x ++ [f] /\ e_got x2 = e_got x /\ e_state x2 = e_state x /\ e_open x2 = e_open x /\ e_pers x2 = e_pers x /\
      e_nout x2 = (e_nout x + if bool_decide (e_state x = TUp) then 1 else 0)%N /\ e_bout x2 = (e_bout x + if bool_decide (e_state x = TUp) then len b else 0)%N).
  { unfold x2. destruct Ha as [Es|Es]; rewrite Es; cbn; rewrite ?Es, ?N.add_0_r; done. }
  destruct Hx2 as (G1 & G2 & G3 & G4 & G5 & G6 & G7). rewrite <-G6, <-G7, <-G1, <-G2, <-G3, <-G4, <-G5.
  assert (Ha2 : active (e_state x2)) by (rewrite G3; done).
  assert (Herr : et_error x2 = Some x' -> e_sent x' = e_sent x2 /\ e_got x' = e_got x2 /\ e_nout x' = e_nout x2 /\ e_bout x' = e_bout x2 /\
      (e_pers x2 = Permanent -> e_state x' = e_state x2 /\ e_open x' = e_open x2) /\ (e_pers x2 <> Permanent -> e_state x' = TFailed /\ e_open x' = false)).
  { intros Ex. destruct (decide (e_pers x2 = Permanent)) as [Hp|Hp].
    - unfold et_error in Ex. rewrite bool_decide_eq_true_2 in Ex by done. injection Ex as <-. tauto.
    - rewrite error_some in Ex by done. injection Ex as <-. do 4 (split; [done|]). split; [tauto|]. done. }
  destruct sent as [n|].
  - destruct (N.ltb_spec n (len f)) as [Hn|Hn].
    + destruct (Herr E2) as (? & ? & ? & ? & Hp & Hq). do 4 (split; [done|]). split.
      * intros [(n' & [= <-] & ?)|?]; [lia|by apply Hp].
      * intros _. done.
    + injection E2 as <-. do 4 (split; [done|]). split; [done|]. intros Hw. destruct Hw. by exists n.
  - destruct (Herr E2) as (? & ? & ? & ? & Hp & Hq). do 4 (split; [done|]). split.
    + intros [(n' & ? & ?)|?]; [done|by apply Hp].
    + intros _. done.
Qed.
(** What happens to a frame that is read: if its header is in order and its payload begins with a packet, exactly that packet is passed on, with the sender as endpoint on a multicast face only,
    and it is counted and extends the life of the face; otherwise nothing is passed on; in both cases the next frame is waited for. *)
Theorem C77_receive x p x' :
  et_read None (Some p) x = Some x' ->
  e_open x = true /\ e_waits x' = S (e_waits x) /\ e_state x' = e_state x /\ e_sent x' = e_sent x /\
  let dest := if is_group (e_dst x) then e_dst x else e_src x in
  (forall sender b r, check_header (e_debug x) (e_src x) dest p = Some sender -> drop 14 p = b ++ r -> is_tlv b ->
     (e_debug x = true -> (Z.of_N (len b) <= e_mtu x)%Z) /\
     e_got x' = e_got x ++ [(b, if is_group (e_dst x) then Some sender else None)] /\ e_recent x' = true /\ e_nin x' = (e_nin x + 1)%N /\ e_bin x' = (e_bin x + len b)%N) /\
  (check_header (e_debug x) (e_src x) dest p = None \/ (forall b r, drop 14 p = b ++ r -> ~ is_tlv b) ->
     e_got x' = e_got x /\ e_recent x' = e_recent x /\ e_nin x' = e_nin x /\ e_bin x' = e_bin x).
Proof.
  intros E. cbn [et_read] in E. destruct (e_open x); [|done]. split; [done|]. set (dest := if is_group (e_dst x) then e_dst x else e_src x) in *.
  destruct (check_header (e_debug x) (e_src x) dest p) as [sender|] eqn:Ec.
  - unfold et_payload in E. change HDR_LEN with 14 in E. destruct (from_buffer (drop 14 p)) as [[b r]|] eqn:Eb.
    + apply from_buffer_spec in Eb as [Eb Hb]. destruct (e_debug x && (e_mtu x <? Z.of_N (len b))%Z) eqn:Em; [done|]. injection E as <-.
      do 3 (split; [done|]). split.
      * intros sender' b' r' Ecs Eb' Hb'. assert (sender' = sender) as -> by congruence. assert (b' = b) as ->.
        { rewrite Eb' in Eb. assert (A : from_buffer (b' ++ r') = Some (b', r')) by by apply from_buffer_spec. assert (B : from_buffer (b' ++ r') = Some (b, r)) by (apply from_buffer_spec; done). congruence. }
        split; [|done]. intros Hd. rewrite Hd in Em. cbn in Em. lia.
      * intros [?|Hn]; [congruence|]. by destruct (Hn b r).
    + injection E as <-. do 3 (split; [done|]). split; [|done]. intros sender' b r _ Ed Hb. assert (from_buffer (drop 14 p) = Some (b, r)) by by apply from_buffer_spec. congruence.
  - injection E as <-. do 3 (split; [done|]). split; [intros; congruence|]. done.
Qed.

(** ** The life of a face *)
(** As long as packets fit the MTU and no face is closed between the completion of a wait and its handler, nothing fails: every event that can happen has an outcome, and states change as documented. *)
Theorem C77_states t last n x now e :
  et_reached t last n x -> (t <= now)%Z -> et_env now x e -> et_fits x e -> et_calm x e ->
  path TUp (e_changes x) (e_state x) /\ exists x', et_step x e = Some x'.
Proof.
  intros (x0 & t0 & Hn & Hh) _ He Hf Hc. pose proof (hist_inv _ _ _ _ _ _ Hn Hh) as Hi. split; [apply Hi|].
  destruct (step_inv now x e) as (x' & E & _); [done..|]. by exists x'.
Qed.
(** A face is CLOSED last: no handler that could touch the transport is left then. *)
Theorem C77_closed_last t last n x : et_reached t last n x -> e_state x = TClosed -> e_ready x = [] /\ e_waits x = 0.
Proof.
  intros (x0 & t0 & Hn & Hh) Hs. pose proof (hist_inv _ _ _ _ _ _ Hn Hh) as Hi. split; [by apply Hi|]. apply Hi. destruct (e_open x) eqn:Eo; [|done].
  apply (ei_open _ Hi) in Eo as [?|?]; congruence.
Qed.
(** A face that is UP or DOWN follows its interface; any other state is kept. *)
Theorem C77_netif running x : exists x', et_netif running x = Some x' /\
  (active (e_state x) -> e_state x' = if running then TUp else TDown) /\ (~ active (e_state x) -> x' = x).
Proof.
  unfold et_netif, et_set_state, active. destruct running, (e_state x) eqn:Es; cbn; eexists; (split; [done|]); cbn; rewrite ?Es; split; naive_solver.
Qed.
(** An error of a wait closes a face that is not permanent. *)
Theorem C77_wait_error x err x' :
  err <> EAborted -> et_read (Some err) None x = Some x' -> active (e_state x) -> e_pers x <> Permanent -> e_state x' = TFailed /\ e_open x' = false.
Proof.
  intros Hn E Ha Hp. cbn in E. rewrite bool_decide_eq_false_2 in E by done. assert (et_error x = Some x') as E' by (rewrite <-E; destruct Ha as [Es|Es]; rewrite Es; done).
  rewrite error_some in E' by done. by injection E' as <-.
Qed.

(** the number of waits and read handlers *)
Definition reads (x : et) : nat := e_waits x + length (e_ready x).
Lemma reads_step now x e x' : e_inv x -> et_env now x e -> et_fits x e -> et_calm x e -> et_step x e = Some x' -> e_open x' = true ->
  e_open x = true /\ (match e with EReady _ => True | ERun _ => forall we, HRead (Some we) ∉ e_ready x | _ => True end -> reads x' = reads x).
Proof.
  intros Hi He Hf Hc E Ho'.
  assert (Hclose : forall y v, e_open (et_do_close (set_estate v y)) = false) by done.
  assert (Herr : forall y z, active (e_state y) -> et_error y = Some z -> e_open z = true -> z = y).
  { intros y z Hya Hy Hz. destruct (decide (e_pers y = Permanent)) as [Hp|Hp].
    - unfold et_error in Hy. rewrite bool_decide_eq_true_2 in Hy by done. by injection Hy as <-.
    - rewrite error_some in Hy by done. injection Hy as <-. done. }
  assert (Hcl : forall y z, et_close y = Some z -> e_open z = true -> z = y).
  { intros y z Hy Hz. destruct (active_dec (e_state y)) as [Ha|Ha]; [rewrite close_some in Hy by done; injection Hy as <-; done|]. rewrite close_other in Hy by done. by injection Hy as <-. }
  destruct e as [b s|we|pkt|running|m| |t p|t|pl sd]; cbn [et_step] in E.
  - unfold et_send in E. destruct (e_debug x && (e_mtu x <? Z.of_N (len b))%Z); [done|]. destruct (active_dec (e_state x)) as [Ha|Ha].
    + split; [by apply (ei_open _ Hi)|]. intros _.
      set (x2 := add_esent (frame (e_dst x) (e_src x) b) (match e_state x with TUp => add_eout (len b) x | _ => x end)).
      assert (E2 : match s with None => et_error x2 | Some n => if (n <? len (frame (e_dst x) (e_src x) b))%N then et_error x2 else Some x2 end = Some x') by (rewrite <-E; destruct Ha as [Es|Es]; unfold x2; rewrite Es; done).
      assert (Ha2 : active (e_state x2)) by (unfold x2; destruct Ha as [Es|Es]; rewrite Es; cbn; rewrite ?Es; [by left|by right]).
      assert (x' = x2) as ->.
      { destruct s as [n|]; [destruct (n <? _)%N|]; [by apply Herr|by injection E2 as <-|by apply Herr]. }
      unfold reads, x2. destruct Ha as [Es|Es]; rewrite Es; done.
    + assert (Some x = Some x') as [= <-] by (rewrite <-E; unfold active in Ha; destruct (e_state x); naive_solver). done.
  - destruct (e_waits x) as [|k] eqn:Ew; [done|]. injection E as <-. cbn in Ho'. split; [done|]. intros _. unfold reads. cbn. rewrite app_length, Ew. cbn. lia.
  - destruct (e_ready x) as [|h l] eqn:Er; [done|]. destruct h as [we|].
    + destruct we as [we|]; cbn [et_read] in E.
      * split.
        -- destruct (bool_decide (we = EAborted)); [by injection E as <-|]. cbn [e_state set_esock] in E.
           destruct (e_open x) eqn:Eo; [done|]. destruct (e_state x) eqn:Es; try (injection E as <-; cbn in Ho'; congruence).
           ++ assert (e_open x = true) by (apply (ei_open _ Hi); by left). congruence.
           ++ assert (e_open x = true) by (apply (ei_open _ Hi); by right). congruence.
        -- intros Hx. destruct (Hx we). by left.
      * cbn [e_open set_esock] in E. destruct (e_open x) eqn:Eo; [|done]. split; [done|]. intros _. unfold reads. rewrite Er.
        destruct pkt as [p|]; [|injection E as <-; cbn; lia].
        destruct (check_header _ _ _ p); [|injection E as <-; cbn; lia].
        unfold et_payload in E. destruct (from_buffer _) as [[b r]|]; [destruct (_ && _); [done|]|]; injection E as <-; cbn; lia.
    + exfalso. unfold et_set_state in E. cbn [e_state set_esock] in E. destruct (ei_open _ Hi) as [Hop _].
      assert (Ho : e_open x = false). { destruct (e_open x) eqn:Eo; [|done]. destruct (ei_live _ Hi Eo) as [Hcl' _]. destruct Hcl'. rewrite Er. by left. }
      destruct (bool_decide _); [injection E as <-; cbn in Ho'; congruence|]. destruct (valid_change _ _); [injection E as <-; cbn in Ho'; congruence|done].
  - unfold et_netif, et_set_state in E. destruct running, (e_state x) eqn:Es; cbn in E; injection E as <-; cbn in Ho'; done.
  - injection E as <-. done.
  - apply Hcl in E; [|done]. by subst.
  - injection E as <-. unfold et_persistency in *. destruct (bool_decide (e_pers x = p)); [done|]. destruct (bool_decide (p = OnDemand) && _); done.
  - unfold et_timer in E. destruct (e_recent x); [by injection E as <-|]. apply Hcl in E; [|done]. by subst.
  - unfold et_payload in E. destruct (from_buffer pl) as [[b r]|]; [destruct (_ && _); [done|]|]; injection E as <-; done.
Qed.
Lemma errors_step x e x' : et_step x e = Some x' -> e_open x' = true -> (forall we, HRead (Some we) ∉ e_ready x) -> (forall we, e <> EReady (Some we)) -> forall we, HRead (Some we) ∉ e_ready x'.
Proof.
  intros E Ho' Hr Hne.
  assert (Herr : forall y z, (forall we, HRead (Some we) ∉ e_ready y) -> et_error y = Some z -> e_open z = true -> forall we, HRead (Some we) ∉ e_ready z).
  { intros y z Hy Ez Hz. unfold et_error in Ez. destruct (bool_decide (e_pers y = Permanent)); [by injection Ez as <-|]. destruct (et_set_state TFailed y); [|done]. by injection Ez as <-. }
  assert (Hcl : forall y z, (forall we, HRead (Some we) ∉ e_ready y) -> et_close y = Some z -> e_open z = true -> forall we, HRead (Some we) ∉ e_ready z).
  { intros y z Hy Ez Hz. destruct (active_dec (e_state y)) as [Ha|Ha]; [rewrite close_some in Ez by done; injection Ez as <-; done|]. rewrite close_other in Ez by done. by injection Ez as <-. }
  destruct e as [b s|we|pkt|running|m| |t p|t|pl sd]; cbn [et_step] in E.
  - unfold et_send in E. destruct (e_debug x && _); [done|].
    assert (Hx2 : forall we, HRead (Some we) ∉ e_ready (add_esent (frame (e_dst x) (e_src x) b) (match e_state x with TUp => add_eout (len b) x | _ => x end))) by (destruct (e_state x); done).
    destruct (e_state x); try (by injection E as <-); (destruct s as [n|]; [destruct (n <? _)%N|]); try (by injection E as <-); by (eapply Herr; [exact Hx2|done|done]).
  - destruct (e_waits x) as [|k]; [done|]. injection E as <-. cbn. intros we'. rewrite elem_of_app. intros [?|Hin]; [by eapply Hr|]. apply elem_of_list_singleton in Hin. injection Hin as <-. by eapply Hne.
  - destruct (e_ready x) as [|h l] eqn:Er; [done|]. assert (Hl : forall we, HRead (Some we) ∉ l) by (intros we ?; apply (Hr we); by right). destruct h as [[we|]|].
    + destruct (Hr we). by left.
    + cbn [et_read] in E. cbn [e_open set_esock] in E. destruct (e_open x); [|done]. destruct pkt as [p|]; [|by injection E as <-]. destruct (check_header _ _ _ p); [|by injection E as <-].
      unfold et_payload in E. destruct (from_buffer _) as [[b r]|]; [destruct (_ && _); [done|]|]; by injection E as <-.
    + unfold et_set_state in E. destruct (bool_decide _); [by injection E as <-|]. destruct (valid_change _ _); [by injection E as <-|done].
  - unfold et_netif, et_set_state in E. destruct running, (e_state x) eqn:Es; cbn in E; by injection E as <-.
  - by injection E as <-.
  - by eapply Hcl.
  - injection E as <-. unfold et_persistency in *. destruct (bool_decide (e_pers x = p)); [done|]. destruct (bool_decide (p = OnDemand) && _); done.
  - unfold et_timer in E. destruct (e_recent x); [by injection E as <-|]. by eapply Hcl; [|done|done].
  - unfold et_payload in E. destruct (from_buffer pl) as [[b r]|]; [destruct (_ && _); [done|]|]; by injection E as <-.
Qed.
(** A face that is not being closed always waits for the next frame or is about to read one, if no wait has failed. *)
Theorem C77_listening t last x : et_reached t last 0 x -> active (e_state x) ->
  (e_waits x = 1 /\ e_ready x = []) \/ (e_waits x = 0 /\ e_ready x = [HRead None]).
Proof.
  intros (x0 & t0 & Hn & Hh) Ha.
  assert (Hall : forall n, et_hist x0 t0 t last n x -> e_inv x /\ (n = 0 -> e_open x = true -> reads x = 1 /\ forall we, HRead (Some we) ∉ e_ready x)).
  { intros n H. clear Ha Hh. induction H as [|t last n x t' e x' H IH Ht He Hf Hc E].
    - destruct (new_inv _ _ Hn) as [Hi Hr]. split; [done|]. intros _ _. split; [done|]. intros we.
      unfold reads in *. destruct Hn as [? ? ? r ? p i _|? ? ? r ? ? Em _]; cbn.
      + unfold unicast_new. destruct r, (bool_decide (p = OnDemand) && (0 <? i)%Z); cbn; apply not_elem_of_nil.
      + unfold mcast_new in Em. destruct (_ && _); [done|]. injection Em as <-. destruct r; cbn; apply not_elem_of_nil.
    - destruct IH as [Hi IH]. destruct (step_inv t' x e) as (y & Ey & Hy); [done..|]. assert (y = x') as -> by congruence. split; [done|]. intros Hn0 Ho'.
      destruct (reads_step t' x e x' Hi He Hf Hc E Ho') as [Ho Hreads].
      assert (Hnn : n = 0 /\ forall we, e <> EReady (Some we)). { destruct e as [| [we|] | | | | | | | ]; try done; by split. }
      destruct Hnn as [-> Hne]. destruct (IH eq_refl Ho) as [Hr1 Hr2]. split; [|by eapply errors_step].
      rewrite Hreads; [done|]. by destruct e. }
  destruct (Hall 0 Hh) as [Hi Hr]. assert (Ho : e_open x = true) by by apply (ei_open _ Hi). destruct (Hr eq_refl Ho) as [H1 H2]. destruct (ei_live _ Hi Ho) as [H3 _]. unfold reads in H1.
  destruct (e_ready x) as [|h l] eqn:Er; [left; cbn in H1; split; [lia|done]|]. destruct l as [|h' l]; [|cbn in H1; lia]. right. cbn in H1. split; [lia|].
  destruct h as [[we|]|]; [|done|].
  - destruct (H2 we). by left.
  - destruct H3. by left.
Qed.

(** ** Idle on-demand faces *)
Definition idle_inv (t : Z) (last : option Z) (x : et) : Prop :=
  match e_timer x with
  | Some due => (due <= t + e_idle x)%Z /\ e_pers x = OnDemand /\ (0 < e_idle x)%Z /\ e_expires x = Some due /\
      (e_recent x = false -> forall s, last = Some s -> (s <= due - e_idle x)%Z)
  | None => e_pers x = OnDemand -> (0 < e_idle x)%Z -> ~ active (e_state x)
  end /\ (forall s, last = Some s -> (s <= t)%Z) /\ (e_pers x = OnDemand -> is_group (e_dst x) = false).
Lemma idle_same t t' last x y :
  (t <= t')%Z -> idle_inv t last x -> e_timer y = e_timer x -> e_idle y = e_idle x -> e_pers y = e_pers x -> e_recent y = e_recent x -> e_dst y = e_dst x -> e_expires y = e_expires x ->
  (active (e_state y) -> active (e_state x)) -> idle_inv t' last y.
Proof.
  intros Ht (H1 & H2 & H3) E1 E2 E3 E4 E5 E6 E7. unfold idle_inv. rewrite E1, E2, E3, E4, E5, E6. split; [|split; [|done]].
  - destruct (e_timer x); [|naive_solver]. split; [lia|]. apply H1.
  - intros s Hs. specialize (H2 s Hs). lia.
Qed.
Lemma idle_step t t' last x e x' :
  idle_inv t last x -> e_inv x -> (t <= t')%Z -> et_env t' x e -> et_fits x e -> et_calm x e -> et_step x e = Some x' ->
  idle_inv t' (if decide (length (e_got x) < length (e_got x')) then Some t' else last) x'.
Proof.
  intros Hid Hi Ht He Hf Hc E.
  assert (Hsame : forall y, e_got y = e_got x -> e_timer y = e_timer x -> e_idle y = e_idle x -> e_pers y = e_pers x -> e_recent y = e_recent x -> e_dst y = e_dst x -> e_expires y = e_expires x ->
      (active (e_state y) -> active (e_state x)) -> idle_inv t' (if decide (length (e_got x) < length (e_got y)) then Some t' else last) y).
  { intros y Eg. intros. rewrite decide_False by (rewrite Eg; lia). by apply (idle_same t _ _ x). }
  assert (Hgot : forall pl sd y, et_payload pl sd x = Some y -> forall z, e_got z = e_got y -> e_timer z = e_timer y -> e_idle z = e_idle y -> e_pers z = e_pers y -> e_recent z = e_recent y -> e_dst z = e_dst y -> e_expires z = e_expires y -> e_state z = e_state y ->
      idle_inv t' (if decide (length (e_got x) < length (e_got z)) then Some t' else last) z).
  { intros pl sd y Ey z Z1 Z2 Z3 Z4 Z5 Z6 Z7 Z8. unfold et_payload in Ey. destruct (from_buffer pl) as [[b r]|].
    - destruct (_ && _); [done|]. injection Ey as <-. cbn in *. rewrite decide_True by (rewrite Z1, app_length; cbn; lia).
      destruct Hid as (H1 & H2 & H3). unfold idle_inv. rewrite Z2, Z3, Z4, Z5, Z6, Z7, Z8. split; [|split; [|done]].
      + destruct (e_timer x); [|done]. destruct H1 as (? & ? & ? & ? & _). split; [lia|]. done.
      + intros s [= <-]. lia.
    - injection Ey as <-. apply Hsame; congruence. }
  destruct e as [b s|we|pkt|running|m| |tt p|tt|pl sd]; cbn [et_step] in E.
  - unfold et_send in E. destruct (e_debug x && _); [done|]. destruct (active_dec (e_state x)) as [Ha|Ha].
    + set (x2 := add_esent (frame (e_dst x) (e_src x) b) (match e_state x with TUp => add_eout (len b) x | _ => x end)).
      assert (E2 : match s with None => et_error x2 | Some n => if (n <? len (frame (e_dst x) (e_src x) b))%N then et_error x2 else Some x2 end = Some x') by (rewrite <-E; destruct Ha as [Es|Es]; unfold x2; rewrite Es; done).
      assert (Hx2 : e_got x2 = e_got x /\ e_timer x2 = e_timer x /\ e_idle x2 = e_idle x /\ e_pers x2 = e_pers x /\ e_recent x2 = e_recent x /\ e_dst x2 = e_dst x /\ e_expires x2 = e_expires x) by (unfold x2; destruct (e_state x); done).
      destruct Hx2 as (? & ? & ? & ? & ? & ? & ?). assert (Ha2 : active (e_state x2)) by (unfold x2; destruct Ha as [Es|Es]; rewrite Es; cbn; rewrite ?Es; [by left|by right]).
      assert (Herr : et_error x2 = Some x' -> idle_inv t' (if decide (length (e_got x) < length (e_got x')) then Some t' else last) x').
      { intros Ex. destruct (decide (e_pers x2 = Permanent)) as [Hp|Hp].
        - unfold et_error in Ex. rewrite bool_decide_eq_true_2 in Ex by done. injection Ex as <-. by apply Hsame.
        - rewrite error_some in Ex by done. injection Ex as <-. by apply Hsame. }
      destruct s as [n|]; [destruct (n <? _)%N|]; [by apply Herr|injection E2 as <-; by apply Hsame|by apply Herr].
    + assert (Some x = Some x') as [= <-] by (rewrite <-E; unfold active in Ha; destruct (e_state x); naive_solver). by apply Hsame.
  - destruct (e_waits x) as [|k]; [done|]. injection E as <-. by apply Hsame.
  - destruct (e_ready x) as [|h l] eqn:Er; [done|]. destruct h as [we|].
    + destruct we as [we|]; cbn [et_read] in E.
      * destruct (bool_decide (we = EAborted)); [injection E as <-; by apply Hsame|]. cbn [e_state set_esock] in E.
        destruct (active_dec (e_state x)) as [Ha|Ha].
        -- assert (E2 : et_error (set_esock (e_open x) (e_waits x) l x) = Some x') by (rewrite <-E; destruct Ha as [Es|Es]; rewrite Es; done).
           destruct (decide (e_pers x = Permanent)) as [Hp|Hp].
           ++ unfold et_error in E2. rewrite bool_decide_eq_true_2 in E2 by done. injection E2 as <-. by apply Hsame.
           ++ rewrite error_some in E2 by done. injection E2 as <-. by apply Hsame.
        -- assert (Some (set_esock (e_open x) (e_waits x) l x) = Some x') as [= <-] by (rewrite <-E; unfold active in Ha; destruct (e_state x); naive_solver). by apply Hsame.
      * cbn [e_open set_esock] in E. destruct (e_open x); [|done]. destruct pkt as [p|]; [|injection E as <-; by apply Hsame].
        destruct (check_header _ _ _ p) as [sd|]; [|injection E as <-; by apply Hsame].
        pose proof (Hgot (drop HDR_LEN p) sd) as Hg. unfold et_payload in E, Hg. cbn [e_debug e_mtu e_dst set_esock] in E.
        destruct (from_buffer (drop HDR_LEN p)) as [[b r]|]; [destruct (_ && _); [done|]|]; injection E as <-; (eapply Hg; [reflexivity|done..]).
    + unfold et_set_state in E. destruct (bool_decide _); [injection E as <-; by apply Hsame|]. destruct (valid_change _ _); [|done]. injection E as <-. apply Hsame; try done. by intros [?|?].
  - unfold et_netif, et_set_state in E. destruct running, (e_state x) eqn:Es; cbn in E; injection E as <-; (apply Hsame; try done); rewrite ?Es; first [done | intros _; by left | intros _; by right].
  - injection E as <-. by apply Hsame.
  - destruct (active_dec (e_state x)) as [Ha|Ha]; [rewrite close_some in E by done|rewrite close_other in E by done]; injection E as <-; by apply Hsame.
  - injection E as <-. destruct He as [-> Hg]. unfold et_persistency. case_bool_decide as B; [by apply Hsame|]. destruct Hid as (H1 & H2 & H3).
    assert (Hlast : forall s, last = Some s -> (s <= t')%Z) by (intros s Hs; specialize (H2 s Hs); lia).
    destruct (bool_decide (p = OnDemand)) eqn:Bp; [apply bool_decide_eq_true in Bp|apply bool_decide_eq_false in Bp].
    + destruct (Z.ltb_spec 0 (e_idle x)); cbn.
      * rewrite decide_False by (cbn; lia). unfold idle_inv. cbn. split; [|split; [done|]].
        -- split; [lia|]. split; [done|]. split; [done|]. split; [done|]. intros _ s Hs. specialize (Hlast s Hs). lia.
        -- intros _. destruct (is_group (e_dst x)); [|done]. rewrite Hg in Bp by done. done.
      * rewrite decide_False by (cbn; lia). unfold idle_inv. cbn. split; [intros; lia|]. split; [done|]. intros _. destruct (is_group (e_dst x)); [|done]. rewrite Hg in Bp by done. done.
    + cbn. rewrite decide_False by (cbn; lia). unfold idle_inv. cbn. split; [done|]. split; [done|]. done.
  - destruct He as (-> & due & Etm & Hdue). unfold et_timer in E. destruct Hid as (H1 & H2 & H3). rewrite Etm in H1. destruct H1 as (H1 & Hod & Hpos & Hex & Hrec).
    assert (Hlast : forall s, last = Some s -> (s <= t')%Z) by (intros s Hs; specialize (H2 s Hs); lia).
    destruct (e_recent x) eqn:Erc.
    + injection E as <-. rewrite decide_False by (cbn; lia). unfold idle_inv. cbn. split; [|split; [done|done]]. split; [lia|]. split; [done|]. split; [done|]. split; [done|].
      intros _ s Hs. specialize (Hlast s Hs). lia.
    + destruct (active_dec (e_state (set_etimer None (e_expires x) x))) as [Ha|Ha]; [rewrite close_some in E by done|rewrite close_other in E by done]; injection E as <-;
        (rewrite decide_False by (cbn; lia)); unfold idle_inv; cbn; (split; [|done]); intros _ _; [by intros [?|?]|done].
  - eapply Hgot; [exact E|done..].
Qed.
Lemma hist_idle x0 t0 t last n x : et_new t0 x0 -> et_hist x0 t0 t last n x -> idle_inv t last x.
Proof.
  intros Hn H. induction H as [|t last n x t' e x' H IH Ht He Hf Hc E].
  - destruct Hn as [debug local remote running mtu p idle Hg|debug local group running mtu x Em Hg].
    + unfold unicast_new. destruct (bool_decide (p = OnDemand)) eqn:Bp; [apply bool_decide_eq_true in Bp|apply bool_decide_eq_false in Bp].
      * destruct (Z.ltb_spec 0 idle); destruct running; unfold idle_inv; cbn; (split; [|done]); first [split; [lia|]; done | intros; lia].
      * destruct running; unfold idle_inv; cbn; done.
    + unfold mcast_new in Em. destruct (_ && _); [done|]. injection Em as <-. destruct running; unfold idle_inv; cbn; done.
  - eapply idle_step; try done. by eapply hist_inv.
Qed.
(** The timer closes a face only if it is on-demand and received no packet during the idle timeout before. *)
Theorem C77_idle t last n x now x' :
  et_reached t last n x -> (t <= now)%Z -> et_env now x (ETimer now) -> et_step x (ETimer now) = Some x' -> active (e_state x) -> e_state x' = TClosing ->
  e_pers x = OnDemand /\ (0 < e_idle x)%Z /\ forall s, last = Some s -> (s <= now - e_idle x)%Z.
Proof.
  intros (x0 & t0 & Hn & Hh) Ht (_ & due & Etm & Hdue) E Ha Hs. pose proof (hist_idle _ _ _ _ _ _ Hn Hh) as (H1 & H2 & H3). rewrite Etm in H1. destruct H1 as (H1 & Hod & Hpos & Hex & Hrec).
  split; [done|]. split; [done|]. intros s Hls. cbn in E. unfold et_timer in E. destruct (e_recent x) eqn:Er.
  - injection E as <-. cbn in Hs. rewrite Hs in Ha. by destruct Ha.
  - specialize (Hrec eq_refl s Hls). lia.
Qed.
(** An active on-demand face with an idle timeout always has the timer running, due within the timeout, and that is the expiration time that the face reports. *)
Theorem C77_timer t last n x : et_reached t last n x -> active (e_state x) -> e_pers x = OnDemand -> (0 < e_idle x)%Z ->
  exists due, e_timer x = Some due /\ (due <= t + e_idle x)%Z /\ e_expires x = Some due.
Proof.
  intros (x0 & t0 & Hn & Hh) Ha Hp Hi. pose proof (hist_idle _ _ _ _ _ _ Hn Hh) as (H1 & _). destruct (e_timer x) as [due|]; [|by destruct (H1 Hp Hi)]. exists due. naive_solver.
Qed.
(** Other faces have no timer. *)
Theorem C77_no_timer t last n x : et_reached t last n x -> e_pers x <> OnDemand \/ (e_idle x <= 0)%Z -> e_timer x = None.
Proof.
  intros (x0 & t0 & Hn & Hh) Hc. pose proof (hist_idle _ _ _ _ _ _ Hn Hh) as (H1 & _). destruct (e_timer x) as [due|]; [|done]. destruct H1 as (_ & ? & ? & _). destruct Hc; [done|lia].
Qed.
(** If no packet was received since the timer was set, the face is closed when it is due. *)
Theorem C77_idle_closes x now x' : active (e_state x) -> e_recent x = false -> et_step x (ETimer now) = Some x' -> e_state x' = TClosing /\ e_open x' = false.
Proof. intros Ha Hr E. cbn in E. unfold et_timer in E. rewrite Hr in E. rewrite close_some in E by done. by injection E as <-. Qed.
(** If one was, it is not, and the next check is one idle timeout later. *)
Theorem C77_idle_stays x now : e_recent x = true -> exists x', et_step x (ETimer now) = Some x' /\ e_state x' = e_state x /\ e_recent x' = false /\ e_timer x' = Some (now + e_idle x)%Z /\ e_expires x' = Some (now + e_idle x)%Z.
Proof. intros Hr. cbn. unfold et_timer. rewrite Hr. eexists. done. Qed.

(** A new face: open, with one wait, UP if the interface runs and DOWN otherwise; only an on-demand face with a positive timeout has a timer; a multicast face is permanent and needs a group address. *)
Theorem C77_new debug local remote (running : bool) mtu p idle now : exists (timer : option Z) (changes : list tstate),
  ((p = OnDemand /\ (0 < idle)%Z /\ timer = Some (now + idle)%Z) \/ (~ (p = OnDemand /\ (0 < idle)%Z) /\ timer = None)) /\ changes = (if running then [] else [TDown]) /\
  unicast_new debug local remote running mtu p idle now = Et local remote debug idle p (if running then TUp else TDown) (Z.of_N mtu) true 1 [] false timer timer 0 0 0 0 changes [] [].
Proof.
  unfold unicast_new. case_bool_decide as Hp; cbn [andb].
  - destruct (Z.ltb_spec 0 idle).
    + exists (Some (now + idle)%Z), (if running then [] else [TDown]). split; [by left|]. split; [done|]. by destruct running.
    + exists None, (if running then [] else [TDown]). split; [right; split; [lia|done]|]. split; [done|]. by destruct running.
  - exists None, (if running then [] else [TDown]). split; [right; split; [tauto|done]|]. split; [done|]. by destruct running.
Qed.
Theorem C77_new_mcast debug local group running mtu :
  mcast_new debug local group running mtu =
  if debug && negb (is_group group) then None
  else Some (Et local group debug 0 Permanent (if running then TUp else TDown) (Z.of_N mtu) true 1 [] false None None 0 0 0 0 (if running then [] else [TDown]) [] []).
Proof. unfold mcast_new. destruct (_ && _); [done|]. by destruct running. Qed.
(** The MTU follows the interface, and nothing else changes. *)
Theorem C77_mtu x m : et_step x (EMtu m) = Some (Et (e_src x) (e_dst x) (e_debug x) (e_idle x) (e_pers x) (e_state x) (Z.of_N m) (e_open x) (e_waits x) (e_ready x) (e_recent x) (e_timer x) (e_expires x)
  (e_nout x) (e_bout x) (e_nin x) (e_bin x) (e_changes x) (e_sent x) (e_got x)).
Proof. done. Qed.

(** ** What does not hold *)
Definition here : mac := [2; 0; 0; 0; 0; 1]%N.
Definition there : mac := [2; 0; 0; 0; 0; 2]%N.
Definition group : mac := [1; 0; 94; 0; 23; 170]%N.
Definition packet : list N := [6; 3; 1; 2; 3]%N.
(** A face that is closed after a frame arrived and before its handler runs reads from a capture handle that is null. *)
Theorem C77_race_refuted :
  ~ (forall x e1 e2 e3 x1 x2, et_new 0 x -> et_env 0 x e1 -> et_step x e1 = Some x1 -> et_env 0 x1 e2 -> et_step x1 e2 = Some x2 -> et_env 0 x2 e3 ->
       et_fits x e1 -> et_fits x1 e2 -> et_fits x2 e3 -> exists x3, et_step x2 e3 = Some x3).
Proof.
  intros H. set (x := unicast_new true here there true 1500 Persistent 0 0).
  set (x1 := set_esock true 0 [HRead None] x). set (x2 := et_do_close (set_estate TClosing x1)).
  destruct (H x (EReady None) EClose (ERun None) x1 x2) as [x3 E]; try done. by constructor.
Qed.
(** An incoming packet larger than the MTU of the interface is not dropped: it violates an assertion. *)
Theorem C77_mtu_refuted :
  ~ (forall x p, et_new 0 x -> e_debug x = true -> exists x', et_read None (Some p) x = Some x').
Proof.
  intros H. set (big := [6; 253; 4; 0]%N ++ replicate 1024 0%N).
  destruct (H (unicast_new true here there true 1000 Persistent 0 0) (frame here there big)) as [x' E]; [by constructor|done|]. vm_compute in E. done.
Qed.
(** A permanent face whose wait fails once stays UP and never reads again. *)
Theorem C77_deaf_refuted :
  ~ (forall t last n x, et_reached t last n x -> e_state x = TUp -> e_pers x = Permanent -> exists e, et_env t x e /\ match e with EReady _ | ERun _ => True | _ => False end).
Proof.
  intros H. set (x0 := Et here group true 0 Permanent TUp 1500 true 1 [] false None None 0 0 0 0 [] [] []).
  set (x1 := set_esock true 0 [HRead (Some EOther)] x0). set (x2 := set_esock true 0 [] x0).
  assert (Hr : et_reached 0 None 1 x2).
  { exists x0, 0%Z. split; [by apply (en_mcast 0 true here group true 1500)|].
    apply (eh_snoc x0 0 0 None 1 x1 0 (ERun None) x2); [|done|done|done| |done].
    - apply (eh_snoc x0 0 0 None 0 x0 0 (EReady (Some EOther)) x1); [constructor|done|done|done| |done]. intros x' E _ Ho. cbn in E. injection E as <-. done.
    - intros x' E _ Ho. cbn in E. injection E as <-. done. }
  destruct (H 0%Z None 1 x2 Hr eq_refl eq_refl) as (e & He & Hk). destruct e; try done. by destruct He as [Hw _].
Qed.
(** A face that becomes on-demand again is not closed at its expiration time although the last packet is older than any timeout: what it received earlier still counts. *)
Theorem C77_stale_refuted :
  ~ (forall t last n x now x', et_reached t last n x -> (t <= now)%Z -> et_env now x (ETimer now) -> et_step x (ETimer now) = Some x' -> active (e_state x) ->
       (forall s, last = Some s -> (s < now - e_idle x)%Z) -> e_state x' = TClosing).
Proof.
  intros H. set (x0 := unicast_new true here there true 1500 OnDemand 100 0).
  set (x1 := add_egot packet None (set_erecent true x0)).
  set (x2 := et_persistency 20 Persistent x1). set (x3 := et_persistency 5000 OnDemand x2).
  assert (Hr : et_reached 5000 (Some 10%Z) 0 x3).
  { exists x0, 0%Z. split; [by constructor|].
    apply (eh_snoc x0 0 20 (Some 10%Z) 0 x2 5000 (EPersistency 5000 OnDemand) x3); [|lia|done|done|by intros x' [= <-]|done].
    apply (eh_snoc x0 0 10 (Some 10%Z) 0 x1 20 (EPersistency 20 Persistent) x2); [|lia|done|done|by intros x' [= <-]|done].
    apply (eh_snoc x0 0 0 None 0 x0 10 (EPayload packet there) x1); [constructor|lia|done| | |done].
    - cbn. intros b r Eb _. apply (f_equal length) in Eb. rewrite app_length in Eb. cbn in Eb. change (e_mtu x0) with 1500%Z. unfold len. lia.
    - intros x' E _ Ho. vm_compute in E. injection E as <-. done. }
  assert (e_state (et_schedule 5100 (set_erecent false (set_etimer None (e_expires x3) x3))) = TClosing) as Hc; [|done].
  apply (H 5000%Z (Some 10%Z) 0 x3 5100%Z); [done|lia| |done|by left|].
  - split; [done|]. exists 5100%Z. done.
  - intros s [= <-]. by vm_compute.
Qed.

(** ** Cases *)
Example C77_case_round_trip :
  check_header true here here (capture (frame here there packet)) = Some there /\ from_buffer (drop 14 (capture (frame here there packet))) = Some (packet, replicate 41 0%N) /\
  length (frame here there packet) = 60.
Proof. vm_compute. done. Qed.
Example C77_case_filters :
  passes 0 (unicast_filter here there) (frame here there packet) = true /\ passes 0 (channel_filter here [there]) (frame here there packet) = false /\
  passes 0 (channel_filter here []) (frame here there packet) = true /\ passes 0 (mcast_filter here group) (frame group there packet) = true /\
  passes 0 (mcast_filter here group) (frame group here packet) = false.
Proof. vm_compute. done. Qed.
Example C77_case_text :
  filter_text (unicast_filter here there) = "(ether proto 0x8624) && (ether src 02:00:00:00:00:02) && (ether dst 02:00:00:00:00:01) && (not vlan)"%string.
Proof. vm_compute. done. Qed.
(** a new face: sends, receives, follows the interface, is closed when idle *)
Example C77_case_life :
  let x0 := unicast_new true here there true 1500 OnDemand 100 0 in
  option_map (fun x => (e_state x, e_nout x, e_nin x, e_got x, rev (e_changes x)))
    (foldl (fun o e => match o with Some x => et_step x e | None => None end) (Some x0)
      [ESend packet (Some 60%N); EReady None; ERun (Some (frame here there packet)); ENetif false; ESend packet (Some 60%N); ENetif true; ETimer 100; ETimer 200; ERun None; ERun None])
  = Some (TClosed, 1%N, 1%N, [(packet, None)], [TDown; TUp; TClosing; TClosed]).
Proof. vm_compute. done. Qed.
(** the hypotheses of the theorems about histories are met *)
Example C77_case_reached : exists x, et_reached 100 (Some 10%Z) 0 x /\ e_state x = TUp /\ e_timer x = Some 200%Z /\ e_recent x = false.
Proof.
  set (x0 := unicast_new true here there true 1500 OnDemand 100 0).
  set (x1 := add_egot packet None (set_erecent true x0)).
  exists (et_schedule 100 (set_erecent false (set_etimer None (e_expires x1) x1))). split; [|done].
  exists x0, 0%Z. split; [by constructor|].
  apply (eh_snoc x0 0 10 (Some 10%Z) 0 x1 100 (ETimer 100) (et_schedule 100 (set_erecent false (set_etimer None (e_expires x1) x1)))); [|lia| |done|by intros x' [= <-]|done].
  - apply (eh_snoc x0 0 0 None 0 x0 10 (EPayload packet there) x1); [constructor|lia|done| | |done].
    + cbn. intros b r Eb _. apply (f_equal length) in Eb. rewrite app_length in Eb. cbn in Eb. change (e_mtu x0) with 1500%Z. unfold len. lia.
    + intros x' E _ Ho. vm_compute in E. injection E as <-. done.
  - split; [done|]. exists 100%Z. done.
Qed.

Print Assumptions C77_frame.
Print Assumptions C77_fields.
Print Assumptions C77_header.
Print Assumptions C77_round_trip.
Print Assumptions C77_unicast_filter.
Print Assumptions C77_mcast_filter.
Print Assumptions C77_channel_filter.
Print Assumptions C77_one_taker.
Print Assumptions C77_filter_check.
Print Assumptions C77_mac_text.
Print Assumptions C77_new.
Print Assumptions C77_new_mcast.
Print Assumptions C77_mtu.
Print Assumptions C77_filter_text.
Print Assumptions C77_send.
Print Assumptions C77_receive.
Print Assumptions C77_states.
Print Assumptions C77_closed_last.
Print Assumptions C77_netif.
Print Assumptions C77_wait_error.
Print Assumptions C77_listening.
Print Assumptions C77_idle.
Print Assumptions C77_timer.
Print Assumptions C77_no_timer.
Print Assumptions C77_idle_closes.
Print Assumptions C77_idle_stays.
Print Assumptions C77_race_refuted.
Print Assumptions C77_mtu_refuted.
Print Assumptions C77_deaf_refuted.
Print Assumptions C77_stale_refuted.
