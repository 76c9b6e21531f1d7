(** C75: creation of TCP and UDP unicast faces. *)
From Coq Require Import String.
From stdpp Require Import gmap strings.
From Verif Require Import Lib Fm_Model Fm_Spec Fm_Props Ch_Model.
Open Scope string_scope.
Open Scope list_scope.

(** ** What the factories refuse *)
(** The TCP factory refuses, with 406, exactly the requests with a local URI, for an on-demand face, with local fields for an address that is not a loopback one, or with an MTU. *)
Theorem C75_tcp_refused q e :
  multicast (e_addr e) = false ->
  let refused := q_local q <> None \/ q_persist q = OnDemand \/ (q_lf q = true /\ loopback (e_addr e) = false) \/ q_mtu q <> None in
  (refused -> tcp_check q e = Some (Some 406%N)) /\ (~ refused -> tcp_check q e = Some None).
Proof.
  intros Hm refused. unfold refused, tcp_check. rewrite Hm. destruct (q_local q); [naive_solver|]. destruct (decide (q_persist q = OnDemand)); [naive_solver|].
  destruct (q_lf q), (loopback (e_addr e)); cbn; destruct (q_mtu q); naive_solver.
Qed.
(** The UDP factory refuses, with 406, exactly the requests with a local URI, for an on-demand face, for a multicast address, with local fields, or with an MTU below 64. *)
Theorem C75_udp_refused q e :
  let refused := q_local q <> None \/ q_persist q = OnDemand \/ multicast (e_addr e) = true \/ q_lf q = true \/ (exists m, q_mtu q = Some m /\ (m < 64)%Z) in
  (refused -> udp_check q e = Some 406%N) /\ (~ refused -> udp_check q e = None).
Proof.
  intros refused. unfold refused, udp_check, MIN_MTU. destruct (q_local q); [naive_solver|]. destruct (decide (q_persist q = OnDemand)); [naive_solver|].
  destruct (multicast (e_addr e)); [naive_solver|]. destruct (q_lf q); [naive_solver|]. destruct (q_mtu q) as [m|]; [|naive_solver].
  destruct (Z.ltb_spec m 64); [split; [done|]; intros H1; destruct H1; do 4 right; by exists m|].
  split; [|done]. intros [?|[?|[?|[?|(m' & [= <-] & ?)]]]]; try done. lia.
Qed.
(** loopback addresses are 127.0.0.0/8 and ::1, multicast addresses are 224.0.0.0/4 and ff00::/8 *)
Theorem C75_addresses n :
  (loopback (Addr false n) = true <-> (127 * 2 ^ 24 <= n < 128 * 2 ^ 24)%N) /\ (loopback (Addr true n) = true <-> n = 1%N) /\
  (multicast (Addr false n) = true <-> (224 * 2 ^ 24 <= n < 240 * 2 ^ 24)%N) /\ (multicast (Addr true n) = true <-> (255 * 2 ^ 120 <= n < 256 * 2 ^ 120)%N).
Proof.
  assert (D : forall a b, (0 < b)%N -> forall n, (n / b = a <-> a * b <= n < (a + 1) * b)%N).
  { intros a b Hb x. pose proof (N.div_mod x b ltac:(lia)) as Q. pose proof (N.mod_lt x b ltac:(lia)) as R.
    generalize dependent (x / b)%N. generalize dependent (x mod b)%N. intros r Hr d Hd. split; [intros ->; nia|]. intros. nia. }
  unfold loopback, multicast. cbn [a_v6 a_num]. rewrite !N.eqb_eq. rewrite !D by lia. change ((14 + 1) * 2 ^ 28)%N with (240 * 2 ^ 24)%N. lia.
Qed.

(** the first channel of that protocol and address family *)
Definition first_chan (p : proto) (v6 : bool) (l : list chan) (k : nat) (c : chan) : Prop :=
  l !! k = Some c /\ ch_proto c = p /\ ch_v6 c = v6 /\ forall j d, j < k -> l !! j = Some d -> ~ (ch_proto d = p /\ ch_v6 d = v6).
Lemma find_chan_spec p v6 l : forall i,
  match find_chan p v6 i l with
  | Some k => exists c, i <= k /\ first_chan p v6 l (k - i) c
  | None => forall j d, l !! j = Some d -> ~ (ch_proto d = p /\ ch_v6 d = v6)
  end.
Proof.
  induction l as [|c l IH]; intros i; cbn; [done|].
  assert (Rest : ~ (ch_proto c = p /\ ch_v6 c = v6) ->
    match find_chan p v6 (S i) l with
    | Some k => exists c0, i <= k /\ first_chan p v6 (c :: l) (k - i) c0
    | None => forall j d, (c :: l) !! j = Some d -> ~ (ch_proto d = p /\ ch_v6 d = v6)
    end).
  { intros Hc. specialize (IH (S i)). destruct (find_chan p v6 (S i) l) as [k|].
    - destruct IH as (d & Hk & H1 & H2 & H3 & H4). exists d. split; [lia|]. replace (k - i) with (S (k - S i)) by lia. split; [done|]. split; [done|]. split; [done|].
      intros [|j] d' Hj; cbn; [by intros [= <-]|]. intros Hd. apply (H4 j); [lia|done].
    - intros [|j] d; cbn; [by intros [= <-]|apply IH]. }
  destruct (decide (ch_proto c = p)) as [e|ne]; [|apply Rest; by intros [? _]].
  destruct (Bool.eqb (ch_v6 c) v6) eqn:Ev; [|apply Rest; intros [_ E]; rewrite E, Bool.eqb_reflx in Ev; done].
  apply Bool.eqb_prop in Ev. exists c. split; [lia|]. rewrite Nat.sub_diag. split; [done|]. split; [done|]. split; [done|]. intros j d Hj. lia.
Qed.
Lemma first_unique p v6 l k c k' c' : first_chan p v6 l k c -> first_chan p v6 l k' c' -> k = k' /\ c = c'.
Proof.
  intros (A1 & A2 & A3 & A4) (B1 & B2 & B3 & B4). assert (k = k') as ->; [|split; [done|congruence]].
  destruct (Nat.lt_trichotomy k k') as [H|[H|H]]; [destruct (B4 k c H A1); done|done|destruct (A4 k' c' H B1); done].
Qed.
Lemma find_first p v6 l k c : first_chan p v6 l k c -> find_chan p v6 0 l = Some k.
Proof.
  intros F. pose proof (find_chan_spec p v6 l 0) as S. destruct (find_chan p v6 0 l) as [k'|].
  - destruct S as (c' & _ & F'). rewrite Nat.sub_0_r in F'. f_equal. by eapply (first_unique p v6 l).
  - destruct F as (A & B & C & _). by destruct (S _ _ A).
Qed.
Lemma find_none p v6 l : (forall j d, l !! j = Some d -> ~ (ch_proto d = p /\ ch_v6 d = v6)) -> find_chan p v6 0 l = None.
Proof.
  intros H. pose proof (find_chan_spec p v6 l 0) as S. destruct (find_chan p v6 0 l) as [k'|]; [|done].
  destruct S as (c' & _ & (A & B & C & _)). by destruct (H _ _ A).
Qed.

Section channels.
  Variable parse : string -> option uri.
  Variable canonical : uri -> bool.
  Variable endpoint_of : uri -> endpoint.
  Variable uri_of : proto -> endpoint -> uri.
  Variable proto_of : string -> option proto.
  Variable is_local : addr -> bool.
  Notation w_step := (w_step parse canonical endpoint_of uri_of proto_of is_local).
  Notation w_run := (w_run parse canonical endpoint_of uri_of proto_of is_local).
  Notation command := (command parse canonical endpoint_of uri_of proto_of).
  Notation handle_connect := (handle_connect uri_of is_local).
  Notation request_of := (create_request parse canonical (fun t => match proto_of t with Some _ => true | None => false end)).

  (** ** What a new face is *)
  (** the options of a new face are those of the request, or the defaults *)
  Definition as_asked (c : chan) (q : request) (fc : mface) (o : options) : Prop :=
    mf_svc fc = Some o /\ o_reliable o = q_rel q /\ mf_persist fc = q_persist q /\ mf_state fc = Up /\ mf_link fc = PointToPoint /\
    (forall b, q_mark q = Some b -> o_mark o = b) /\ (q_mark q = None -> o_mark o = ch_mark c) /\
    (forall i, q_interval q = Some i -> o_interval o = i) /\ (q_interval q = None -> o_interval o = 100000000%Z) /\
    (forall t, q_threshold q = Some t -> o_threshold o = t) /\ (q_threshold q = None -> o_threshold o = 65536%N).
  Definition new_tcp_face (c : chan) (q : request) (remote local : endpoint) (fc : mface) : Prop :=
    mf_remote fc = uri_of Tcp remote /\ mf_local fc = uri_of Tcp local /\ (mf_is_local fc = true <-> is_local (e_addr local) = true /\ is_local (e_addr remote) = true) /\
    mf_kind fc = KTcp /\ mf_tmtu fc = (-1)%Z /\ mf_expires fc = None /\ exists o, as_asked c q fc o /\ o_local o = q_lf q.
  Definition new_udp_face (now : Z) (c : chan) (q : request) (remote local : endpoint) (fc : mface) : Prop :=
    mf_remote fc = uri_of Udp remote /\ mf_local fc = uri_of Udp local /\ mf_is_local fc = false /\
    mf_kind fc = KUnicast (ch_idle c) /\ mf_tmtu fc = (if a_v6 (e_addr local) then 65527 else 65467)%Z /\
    (q_persist q = OnDemand -> (0 < ch_idle c)%Z -> mf_expires fc = Some (now + ch_idle c)%Z) /\ (q_persist q <> OnDemand \/ (ch_idle c <= 0)%Z -> mf_expires fc = None) /\
    exists o, as_asked c q fc o /\ o_local o = false /\ (forall m, q_mtu q = Some m -> o_mtu o = m) /\ (q_mtu q = None -> o_mtu o = ch_mtu c).
  Lemma tcp_face_new c q remote local : new_tcp_face c q remote local (tcp_face uri_of is_local c q remote local).
  Proof.
    unfold new_tcp_face, tcp_face, as_asked. cbn. do 2 (split; [done|]). split; [by rewrite andb_true_iff|]. do 3 (split; [done|]). eexists. split.
    { split; [reflexivity|]. cbn. do 4 (split; [done|]). split; [by intros b ->|]. split; [by intros ->|]. split; [by intros i ->|]. split; [by intros ->|]. split; [by intros t ->|by intros ->]. }
    done.
  Qed.
  Lemma udp_face_new now c q remote local : new_udp_face now c q remote local (udp_face uri_of now c q remote local).
  Proof.
    unfold new_udp_face, udp_face, as_asked. cbn. do 4 (split; [done|]). split; [by destruct (a_v6 (e_addr local))|]. split.
    { intros -> H. cbn. apply Z.ltb_lt in H. by rewrite H. }
    split. { intros H. destruct (decide (q_persist q = OnDemand)); [|done]. destruct (Z.ltb_spec 0 (ch_idle c)); [|done]. destruct H; [done|lia]. }
    eexists. split.
    { split; [reflexivity|]. cbn. do 4 (split; [done|]). split; [by intros b ->|]. split; [by intros ->|]. split; [by intros i ->|]. split; [by intros ->|]. split; [by intros t ->|by intros ->]. }
    split; [done|]. cbn. split; [by intros m ->|by intros ->].
  Qed.

  (** what the manager does for command [n] when the channel has a face for that endpoint: 409 with that face, and nothing changes *)
  Definition reported (k : nat) (c : chan) (remote : endpoint) (n : N) (w w' : world) : Prop :=
    exists id fc b, ch_faces c !! remote = Some id /\ fm_faces (w_fm w) !! id = Some fc /\ describes true b id fc /\
      w' = World (w_fm w) (w_chans w) (w_tries w) (w_next w) ((n, Response 409 (Some b)) :: w_answers w).
  (** when it has none: 200 with the new face, which is in the table and in the channel *)
  Definition created (k : nat) (c : chan) (remote : endpoint) (is_new : mface -> Prop) (n : N) (w w' : world) : Prop :=
    exists id fc b r, ch_faces c !! remote = None /\ fm_faces (w_fm w) !! id = None /\ (255 < id)%N /\ is_new fc /\ describes true b id fc /\ tells r id fc /\
      w' = World (Fm (<[id := fc]> (fm_faces (w_fm w))) id ((ECreated, r) :: fm_notes (w_fm w)))
             (<[k := Chan (ch_proto c) (ch_v6 c) (ch_mark c) (ch_idle c) (ch_mtu c) (ch_waiting c) (<[remote := id]> (ch_faces c))]> (w_chans w))
             (w_tries w) (w_next w) ((n, Response 200 (Some b)) :: w_answers w).
  Lemma done_old id p s s' r : create_done p (MadeOld id) s = Some (s', r) -> s' = s /\ exists fc b, fm_faces s !! id = Some fc /\ r = Response 409 (Some b) /\ describes true b id fc.
  Proof. destruct r as [c b]. intros H%C74_create. destruct H as (bd & -> & -> & -> & fc & A & B). split; [done|]. by exists fc, bd. Qed.
  Lemma done_new fc p s s' r : create_done p (MadeNew fc) s = Some (s', r) ->
    exists id t b, s' = Fm (<[id := fc]> (fm_faces s)) id ((ECreated, t) :: fm_notes s) /\ fm_faces s !! id = None /\ (255 < id)%N /\ tells t id fc /\ r = Response 200 (Some b) /\ describes true b id fc.
  Proof.
    cbn. destruct (mf_is_local fc || negb (is_true (p_lf p))); [|done]. unfold add_face.
    destruct (N.leb_spec ((fm_last s + 1) mod 2 ^ 64) 255); [done|]. destruct (fm_faces s !! _) eqn:E; [done|]. intros [= <- <-].
    eexists _, _, _. split; [reflexivity|]. split; [done|]. split; [done|]. split; [apply properties_tells|]. split; [done|apply create_describes].
  Qed.
  Lemma hand_over_spec k c remote fc n p w w' (is_new : mface -> Prop) :
    w_chans w !! k = Some c -> is_new fc -> hand_over k remote fc n p w = Some w' -> reported k c remote n w w' \/ created k c remote is_new n w w'.
  Proof.
    intros Hc Hn. unfold hand_over. rewrite Hc. destruct (ch_faces c !! remote) as [id|] eqn:E.
    - destruct (create_done p (MadeOld id) (w_fm w)) as [[s r]|] eqn:D; [|done]. intros [= <-]. left.
      apply done_old in D as (-> & f & b & A & -> & B). exists id, f, b. split; [done|]. split; [done|]. split; [done|]. by destruct w.
    - destruct (create_done p (MadeNew fc) (w_fm w)) as [[s r]|] eqn:D; [|done]. intros [= <-]. right.
      apply done_new in D as (id & t & b & -> & A & B & C & -> & F). exists id, fc, b, t. do 6 (split; [done|]). done.
  Qed.

  Definition counted (w : world) : world := World (w_fm w) (w_chans w) (w_tries w) (w_next w + 1) (w_answers w).
  Definition answered (r : response) (w : world) : world := World (w_fm w) (w_chans w) (w_tries w) (w_next w + 1) ((w_next w, r) :: w_answers w).
  (** A create command for a TCP face that is well-formed: it is refused with 406 as above; answered with 504 if there is no channel of that address family; with 409 if the first
      channel of that family has a face for the address; otherwise it is not answered yet and a connection attempt begins. *)
  Theorem C75_tcp_command now p os q w w' :
    request_of p = inr q -> proto_of (u_scheme (q_remote q)) = Some Tcp -> command now p os w = Some w' ->
    let remote := endpoint_of (q_remote q) in
    (tcp_check q remote = Some (Some 406%N) /\ w' = answered (Response 406 None) w) \/
    (tcp_check q remote = Some None /\
     ((forall j d, w_chans w !! j = Some d -> ~ (ch_proto d = Tcp /\ ch_v6 d = a_v6 (e_addr remote))) /\ w' = answered (Response 504 None) w \/
      exists k c, first_chan Tcp (a_v6 (e_addr remote)) (w_chans w) k c /\
        (reported k c remote (w_next w) (counted w) w' \/
         ch_faces c !! remote = None /\ w_tries w' !! w_next w = Some (Attempt k remote p q Waiting true true) /\
         (forall n, n <> w_next w -> w_tries w' !! n = w_tries w !! n) /\
         w_fm w' = w_fm w /\ w_chans w' = w_chans w /\ w_next w' = (w_next w + 1)%N /\ w_answers w' = w_answers w))).
  Proof.
    intros Hq Hp H remote. unfold Ch_Model.command in H. rewrite Hq, Hp in H. fold remote in H.
    destruct (tcp_check q remote) as [[code|]|] eqn:T; [| |done].
    - left. injection H as <-. assert (code = 406%N) as ->; [|done].
      unfold tcp_check in T. repeat (case_match; try congruence).
    - right. split; [done|]. cbn [w_chans] in H. pose proof (find_chan_spec Tcp (a_v6 (e_addr remote)) (w_chans w) 0) as S.
      destruct (find_chan Tcp (a_v6 (e_addr remote)) 0 (w_chans w)) as [k|]; [|left; injection H as <-; done].
      right. destruct S as (c & _ & F). rewrite Nat.sub_0_r in F. exists k, c. split; [done|]. pose proof F as (Hc & _). rewrite Hc in H. cbn [w_fm] in H.
      destruct (ch_faces c !! remote) as [id|] eqn:E.
      + left. destruct (create_done p (MadeOld id) (w_fm w)) as [[s r]|] eqn:D; [|done]. injection H as <-. apply done_old in D as (-> & f & b & A & -> & B).
        exists id, f, b. done.
      + right. injection H as <-. cbn. split; [done|]. split; [by rewrite lookup_partial_alter|]. split; [intros n Hn; by rewrite lookup_partial_alter_ne|]. done.
  Qed.
  (** A create command for a UDP face is answered at once: 406 as above; 504 if there is no channel of that address family or the socket cannot be made; 409 if the first channel of that
      family has a face for the address; 200 with a new face otherwise. *)
  Theorem C75_udp_command now p os q w w' :
    request_of p = inr q -> proto_of (u_scheme (q_remote q)) = Some Udp -> command now p os w = Some w' ->
    let remote := endpoint_of (q_remote q) in
    (udp_check q remote = Some 406%N /\ w' = answered (Response 406 None) w) \/
    (udp_check q remote = None /\
     ((forall j d, w_chans w !! j = Some d -> ~ (ch_proto d = Udp /\ ch_v6 d = a_v6 (e_addr remote))) /\ w' = answered (Response 504 None) w \/
      exists k c, first_chan Udp (a_v6 (e_addr remote)) (w_chans w) k c /\
        (reported k c remote (w_next w) (counted w) w' \/
         ch_faces c !! remote = None /\ os = None /\ w' = answered (Response 504 None) w \/
         exists local, os = Some local /\ created k c remote (new_udp_face now c q remote local) (w_next w) (counted w) w'))).
  Proof.
    intros Hq Hp H remote. unfold Ch_Model.command in H. rewrite Hq, Hp in H. fold remote in H.
    destruct (udp_check q remote) as [code|] eqn:T.
    - left. injection H as <-. assert (code = 406%N) as ->; [|done].
      unfold udp_check in T. repeat (case_match; try congruence).
    - right. split; [done|]. cbn [w_chans] in H. pose proof (find_chan_spec Udp (a_v6 (e_addr remote)) (w_chans w) 0) as S.
      destruct (find_chan Udp (a_v6 (e_addr remote)) 0 (w_chans w)) as [k|]; [|left; injection H as <-; done].
      right. destruct S as (c & _ & F). rewrite Nat.sub_0_r in F. exists k, c. split; [done|]. pose proof F as (Hc & _). rewrite Hc in H. cbn [w_fm] in H.
      destruct (ch_faces c !! remote) as [id|] eqn:E.
      + left. destruct (create_done p (MadeOld id) (w_fm w)) as [[s r]|] eqn:D; [|done]. injection H as <-. apply done_old in D as (-> & f & b & A & -> & B).
        exists id, f, b. done.
      + right. destruct os as [local|]; [right|left; injection H as <-; done]. exists local. split; [done|].
        eapply (hand_over_spec k c remote _ _ _ (counted w)) in H; [|exact Hc|apply udp_face_new]. destruct H as [H|H]; [|exact H].
        destruct H as (id & f & b & A & _). congruence.
  Qed.
  (** When a connection attempt is over: an error is answered with 504, an aborted one is not answered; a connection gives a new face, with 200, or if there is a face for that address
      by then, 409 with that face.  The attempt is forgotten. *)
  Theorem C75_connected n k remote p q g t o w w' :
    w_tries w !! n = Some (Attempt k remote p q g t o) -> handle_connect n w = Some w' ->
    let w1 := World (w_fm w) (w_chans w) (delete n (w_tries w)) (w_next w) (w_answers w) in
    match g with
    | Waiting => False
    | Aborted => w' = w1
    | Errored => w' = answer n (Response 504 None) w1
    | Connected local =>
        if o then exists c, w_chans w !! k = Some c /\ (reported k c remote n w1 w' \/ created k c remote (new_tcp_face c q remote local) n w1 w')
        else w' = answer n (Response 500 None) w1
    end.
  Proof.
    intros Hn H w1. unfold Ch_Model.handle_connect in H. rewrite Hn in H. assert (E : set_try n None w = w1) by done. rewrite E in H.
    destruct g as [| | |local]; [done|congruence|congruence|]. destruct o; [|congruence].
    destruct (w_chans w !! k) as [c|] eqn:Hc; [|done]. exists c. split; [done|]. eapply hand_over_spec; [exact Hc|apply tcp_face_new|exact H].
  Qed.
  (** While a UDP channel waits for peers, a datagram from an address without a face makes an on-demand face, one from another address makes none; a failure of the socket ends the waiting.
      TCP channels likewise. *)
  Definition taken (k : nat) (c : chan) (remote : endpoint) (is_new : mface -> Prop) (w w' : world) : Prop :=
    exists id fc r, fm_faces (w_fm w) !! id = None /\ (255 < id)%N /\ is_new fc /\ tells r id fc /\
      w' = World (Fm (<[id := fc]> (fm_faces (w_fm w))) id ((ECreated, r) :: fm_notes (w_fm w)))
             (<[k := Chan (ch_proto c) (ch_v6 c) (ch_mark c) (ch_idle c) (ch_mtu c) (ch_waiting c) (<[remote := id]> (ch_faces c))]> (w_chans w))
             (w_tries w) (w_next w) (w_answers w).
  Definition deafened (k : nat) (c : chan) (w : world) : world :=
    World (w_fm w) (<[k := Chan (ch_proto c) (ch_v6 c) (ch_mark c) (ch_idle c) (ch_mtu c) false (ch_faces c)]> (w_chans w)) (w_tries w) (w_next w) (w_answers w).
  Lemma take_in_spec k c remote fc w w' (is_new : mface -> Prop) :
    w_chans w !! k = Some c -> ch_faces c !! remote = None -> is_new fc -> take_in k remote fc w = Some w' -> taken k c remote is_new w w'.
  Proof.
    intros Hc Hr Hn. unfold take_in. rewrite Hc, Hr. destruct (add_face fc (w_fm w)) as [[s id]|] eqn:A; [|done]. intros [= <-].
    apply add_change in A as (A & B & C & D & F & G). exists id, fc. eexists. split; [done|]. split; [done|]. split; [done|]. split; [apply properties_tells|].
    destruct s as [sf sl sn]. cbn in C, F, G. subst sl sf sn. done.
  Qed.
  Definition ondemand_request (q : request) (mtu : option Z) : Prop :=
    q_persist q = OnDemand /\ q_interval q = None /\ q_threshold q = None /\ q_mtu q = mtu /\ q_lf q = false /\ q_rel q = false /\ q_mark q = None.
  Theorem C75_peer now k c r os w w' :
    w_chans w !! k = Some c -> new_peer uri_of now k r os w = Some w' ->
    ch_proto c = Udp /\ ch_waiting c = true /\
    match r with
    | None => w' = deafened k c w
    | Some remote =>
        match ch_faces c !! remote, os with
        | Some _, _ => w' = w
        | None, None => w' = deafened k c w
        | None, Some local => exists q, ondemand_request q (Some (ch_mtu c)) /\ taken k c remote (new_udp_face now c q remote local) w w'
        end
    end.
  Proof.
    intros Hc. unfold new_peer. rewrite Hc. destruct (ch_proto c) eqn:Ep; [done|]. destruct (ch_waiting c) eqn:Ew; [|done].
    intros H. split; [done|]. split; [done|]. destruct r as [remote|]; [|injection H as <-; unfold set_chan, deafened, set_waiting; by rewrite Ep].
    destruct (ch_faces c !! remote) eqn:Er; [by injection H as <-|]. destruct os as [local|]; [|injection H as <-; unfold set_chan, deafened, set_waiting; by rewrite Ep].
    exists (incoming (uri_of Udp remote) (Some (ch_mtu c))). split; [done|]. eapply take_in_spec; [done|done|apply udp_face_new|exact H].
  Qed.
  Theorem C75_accepted k c r w w' :
    w_chans w !! k = Some c -> accepted uri_of is_local k r w = Some w' ->
    ch_proto c = Tcp /\ ch_waiting c = true /\
    match r with
    | None => w' = deafened k c w
    | Some (remote, local) =>
        match ch_faces c !! remote with
        | Some _ => w' = w
        | None => exists q, ondemand_request q None /\ taken k c remote (new_tcp_face c q remote local) w w'
        end
    end.
  Proof.
    intros Hc. unfold accepted. rewrite Hc. destruct (ch_proto c) eqn:Ep; [|done]. destruct (ch_waiting c) eqn:Ew; [|done].
    intros H. split; [done|]. split; [done|]. destruct r as [[remote local]|]; [|injection H as <-; unfold set_chan, deafened, set_waiting; by rewrite Ep].
    destruct (ch_faces c !! remote) eqn:Er; [unfold take_in in H; rewrite Hc, Er in H; by injection H as <-|].
    exists (incoming (uri_of Tcp remote) None). split; [done|]. eapply take_in_spec; [done|done|apply tcp_face_new|exact H].
  Qed.

  (** a connection attempt that takes too long is answered 504 at that moment, its timer and its socket are gone and nothing
      else changes; it is the system's answer, if one was there already, that is still to be handled *)
  Theorem C75_timeout n w w' :
    timed_out n w = Some w' ->
    exists a, w_tries w !! n = Some a /\ at_timer a = true /\
      w_answers w' = (n, Response 504 None) :: w_answers w /\
      w_fm w' = w_fm w /\ w_chans w' = w_chans w /\ w_next w' = w_next w /\
      (forall m, m <> n -> w_tries w' !! m = w_tries w !! m) /\
      exists a', w_tries w' !! n = Some a' /\ at_timer a' = false /\ at_open a' = false /\
        at_chan a' = at_chan a /\ at_remote a' = at_remote a /\ at_params a' = at_params a /\ at_req a' = at_req a /\
        (at_progress a = Waiting -> at_progress a' = Aborted) /\ (at_progress a <> Waiting -> at_progress a' = at_progress a).
  Proof.
    unfold timed_out. destruct (w_tries w !! n) as [[k e p q g [] o]|] eqn:E; try done. intros [= <-].
    eexists. split; [reflexivity|]. split; [done|]. cbn. split; [done|]. split; [done|]. split; [done|]. split; [done|].
    split; [intros m Hm; by rewrite lookup_partial_alter_ne|].
    eexists (Attempt k e p q (match g with Waiting => Aborted | _ => g end) false false). split; [by rewrite lookup_partial_alter|]. cbn. repeat (split; [done|]). split; [by intros ->|]. by destruct g.
  Qed.

  (** ** Histories *)
  Definition w_reachable (cs : list chan) (w : world) : Prop := exists l, w_run (w_new cs) l = Some w.
  Lemma w_run_app w l e : w_run w (l ++ [e]) = match w_run w l with Some w' => w_step w' e | None => None end.
  Proof. revert w. induction l as [|e' l IH]; intros w; cbn; [by destruct (w_step w e)|]. destruct (w_step w e'); [apply IH|done]. Qed.

  (** attempts are on TCP channels, and their requests were not refused *)
  Definition tries_ok (w : world) : Prop :=
    forall n a, w_tries w !! n = Some a ->
      (n < w_next w)%N /\ (exists c, w_chans w !! at_chan a = Some c /\ ch_proto c = Tcp) /\
      request_of (at_params a) = inr (at_req a) /\ tcp_check (at_req a) (at_remote a) = Some None /\
      (at_progress a = Waiting -> at_timer a = true /\ at_open a = true) /\ (at_progress a = Aborted -> at_timer a = false) /\ (at_timer a = false -> at_open a = false) /\ (at_timer a = true -> at_open a = true).
  (** where a new face comes from *)
  Definition origin (w : world) (e : w_event) (fc : mface) : Prop :=
    (exists now c q r l, fc = udp_face uri_of now c q r l) \/ (exists c r l u, fc = tcp_face uri_of is_local c (incoming u None) r l) \/
    (exists n k r p q t l c, e = WHandle n /\ w_tries w !! n = Some (Attempt k r p q (Connected l) t true) /\ fc = tcp_face uri_of is_local c q r l).
  (** what a step does to faces and channels *)
  Inductive shape (w : world) (e : w_event) (w' : world) : Prop :=
  | sh_same (F : w_fm w' = w_fm w) (C : w_chans w' = w_chans w)
  | sh_deaf k c (F : w_fm w' = w_fm w) (Hc : w_chans w !! k = Some c) (C : w_chans w' = <[k := set_waiting false c]> (w_chans w))
  | sh_add k c remote fc id ev (Hc : w_chans w !! k = Some c) (Hn : ch_faces c !! remote = None) (Hi : fm_faces (w_fm w) !! id = None)
      (S : fm_step (w_fm w) ev = Some (w_fm w')) (Ad : forall f, adds ev f -> f = fc) (O : origin w e fc) (F : fm_faces (w_fm w') = <[id := fc]> (fm_faces (w_fm w))) (L : (255 < id)%N /\ fm_last (w_fm w') = id)
      (U : mf_remote fc = uri_of (ch_proto c) remote)
      (C : w_chans w' = <[k := set_ch_faces (<[remote := id]> (ch_faces c)) c]> (w_chans w))
  | sh_fm ev (S : fm_step (w_fm w) ev = Some (w_fm w')) (Ad : forall f, ~ adds ev f) (L : fm_last (w_fm w') = fm_last (w_fm w))
      (F : forall id, mf_remote <$> fm_faces (w_fm w') !! id = mf_remote <$> fm_faces (w_fm w) !! id) (C : w_chans w' = w_chans w)
  | sh_gone id ev (S : fm_step (w_fm w) ev = Some (w_fm w')) (Ad : forall f, ~ adds ev f) (L : fm_last (w_fm w') = fm_last (w_fm w))
      (F : fm_faces (w_fm w') = delete id (fm_faces (w_fm w))) (Hi : is_Some (fm_faces (w_fm w) !! id)) (C : w_chans w' = map (forget id) (w_chans w)).
  Lemma shape_over k c remote fc n p w0 w w' e :
    w_fm w = w_fm w0 -> w_chans w = w_chans w0 ->
    w_chans w0 !! k = Some c -> mf_remote fc = uri_of (ch_proto c) remote -> origin w0 e fc -> hand_over k remote fc n p w = Some w' -> shape w0 e w'.
  Proof.
    intros Ef Ec Hc U O. unfold hand_over. rewrite Ec, Hc, Ef. destruct (ch_faces c !! remote) as [id|] eqn:E.
    - destruct (create_done p (MadeOld id) (w_fm w0)) as [[s r]|] eqn:D; [|done]. intros [= <-]. apply done_old in D as (-> & _). by apply sh_same.
    - destruct (create_done p (MadeNew fc) (w_fm w0)) as [[s r]|] eqn:D; [|done]. intros [= <-].
      pose proof D as D'. apply done_new in D' as (id & t & b & -> & A & B & _).
      apply (sh_add _ _ _ k c remote fc id (EvCreate p (MadeNew fc))); try done; cbn [fm_step]; [by rewrite D|]. cbn. by rewrite Ec.
  Qed.
  Lemma shape_take k c remote fc w w' e :
    w_chans w !! k = Some c -> mf_remote fc = uri_of (ch_proto c) remote -> origin w e fc -> take_in k remote fc w = Some w' -> shape w e w'.
  Proof.
    intros Hc U O. unfold take_in. rewrite Hc. destruct (ch_faces c !! remote) as [id|] eqn:E; [intros [= <-]; by apply sh_same|].
    destruct (add_face fc (w_fm w)) as [[s id]|] eqn:D; [|done]. intros [= <-]. pose proof D as D'. apply add_change in D' as (A & B & C & _ & F & _).
    apply (sh_add _ _ _ k c remote fc id (EvAdd fc)); try done. cbn [fm_step]. by rewrite D.
  Qed.
  Lemma step_shape w e w' : tries_ok w -> w_step w e = Some w' -> shape w e w'.
  Proof.
    intros T. destruct e as [now p os|n r|n|n|k r|now k r os|now tag p|p|id st]; cbn [Ch_Model.w_step].
    - intros H. unfold Ch_Model.command in H. destruct (request_of p) as [r|q] eqn:Eq; [injection H as <-; by apply sh_same|].
      destruct (proto_of (u_scheme (q_remote q))) as [[]|] eqn:Ep; [| |done].
      + pose proof (C75_tcp_command now p os q w w' Eq Ep) as X. unfold Ch_Model.command in X. rewrite Eq, Ep in X. specialize (X H).
        destruct X as [(_ & ->)|(_ & [(_ & ->)|(k & c & _ & [(id & f & b & _ & _ & _ & ->)|(_ & _ & _ & A & B & _)])])]; by apply sh_same.
      + set (remote := endpoint_of (q_remote q)) in *. destruct (udp_check q remote); [injection H as <-; by apply sh_same|]. cbn [w_chans w_fm] in H.
        pose proof (find_chan_spec Udp (a_v6 (e_addr remote)) (w_chans w) 0) as S.
        destruct (find_chan Udp (a_v6 (e_addr remote)) 0 (w_chans w)) as [k|]; [|injection H as <-; by apply sh_same].
        destruct S as (c & _ & F). rewrite Nat.sub_0_r in F. destruct F as (Hc & Hu & _). rewrite Hc in H.
        destruct (ch_faces c !! remote) as [id|] eqn:E.
        * destruct (create_done p (MadeOld id) (w_fm w)) as [[s r]|] eqn:D; [|done]. injection H as <-. apply done_old in D as (-> & _). by apply sh_same.
        * destruct os as [local|]; [|injection H as <-; by apply sh_same].
          eapply (shape_over k c remote _ _ _ w (counted w)); [done|done|exact Hc| | |exact H]; [by rewrite Hu|]. left. eauto 10.
    - unfold finished. destruct (w_tries w !! n) as [[k e p q [] t []]|]; try done. intros [= <-]. by apply sh_same.
    - unfold timed_out. destruct (w_tries w !! n) as [[k e p q g [] o]|]; try done. intros [= <-]. by apply sh_same.
    - unfold Ch_Model.handle_connect. destruct (w_tries w !! n) as [[k e p q g t o]|] eqn:En; [|done]. destruct (T _ _ En) as (_ & (c & Hc & Hp) & _). cbn [at_chan] in Hc.
      destruct g as [| | |local]; [done|intros [= <-]; by apply sh_same|intros [= <-]; by apply sh_same|]. destruct o; [|intros [= <-]; by apply sh_same].
      rewrite Hc. intros H.
      eapply (shape_over k c e _ _ _ w (set_try n None w)); [done|done|exact Hc| | |exact H]; [by rewrite Hp|]. do 2 right. exists n, k, e, p, q, t, local, c. done.
    - unfold accepted. destruct (w_chans w !! k) as [c|] eqn:Hc; [|done]. destruct (ch_proto c) eqn:Ep, (ch_waiting c) eqn:Ew; try done.
      destruct r as [[remote local]|]; [|intros [= <-]; by eapply sh_deaf]. intros H. eapply shape_take; [exact Hc| | |exact H]; [by rewrite Ep|]. right. left. eauto.
    - unfold new_peer. destruct (w_chans w !! k) as [c|] eqn:Hc; [|done]. destruct (ch_proto c) eqn:Ep, (ch_waiting c) eqn:Ew; try done.
      destruct r as [remote|]; [|intros [= <-]; by eapply sh_deaf]. destruct (ch_faces c !! remote) eqn:Er; [intros [= <-]; by apply sh_same|].
      destruct os as [local|]; [|intros [= <-]; by eapply sh_deaf]. intros H. eapply shape_take; [exact Hc| | |exact H]; [by rewrite Ep|]. left. eauto 10.
    - intros H. destruct (update_face now tag p (w_fm w)) as [[s r]|] eqn:E; [|done]. injection H as <-.
      apply (sh_fm _ _ _ (EvUpdate now tag p)); [cbn [fm_step]; by rewrite E|intros f Hf; exact Hf| | |done].
      + destruct (C74_update now tag p (w_fm w)) as (s' & c & b & E' & H). rewrite E in E'. injection E' as <- ->.
        by destruct H as [(_ & _ & -> & _)|[(_ & -> & _)|(_ & i & f & f' & bd & _ & A & _ & _ & _ & _ & _ & U & ->)]].
      + intros id. destruct (C74_update now tag p (w_fm w)) as (s' & c & b & E' & H). rewrite E in E'. injection E' as <- ->. cbn [set_fm w_fm].
        destruct H as [(_ & _ & -> & _)|[(_ & -> & _)|(_ & i & f & f' & bd & _ & A & _ & _ & _ & _ & _ & U & ->)]]; [done|done|]. cbn [fm_faces].
        destruct (decide (id = i)) as [->|ne]; [rewrite lookup_insert, A; cbn; f_equal; apply U|by rewrite lookup_insert_ne].
    - intros H0. assert (w' = set_fm (fst (destroy_face p (w_fm w))) w) as -> by congruence. clear H0. apply (sh_fm _ _ _ (EvDestroy p)); [done|intros f Hf; exact Hf| | |done]; destruct (C74_destroy p (w_fm w)) as (s' & b & E & _ & L & _ & O & H);
        change (w_fm (set_fm (fst (destroy_face p (w_fm w))) w)) with (fst (destroy_face p (w_fm w))); rewrite E; cbn [fst]; [done|].
      intros id. destruct (decide (id = p_face p)) as [->|ne]; [|by rewrite O]. destruct (fm_faces (w_fm w) !! p_face p) as [f|]; [|by rewrite H].
      destruct H as (f' & -> & _ & _ & R & _). cbn. by rewrite R.
    - unfold transport_state. destruct (change_state id st (w_fm w)) as [s|] eqn:E; [|done]. intros [= <-].
      pose proof E as E'. apply C74_state in E' as (f & A & [(_ & ->)|(f' & Hs & -> & H)]).
      { rewrite A. by apply sh_same. }
      assert (K : forall s', s = s' -> fm_faces s' = <[id := set_state st f]> (fm_faces (w_fm w)) -> fm_last s' = fm_last (w_fm w) ->
        shape w (WState id st) (World s (match fm_faces s !! id with None => map (forget id) (w_chans w) | Some _ => w_chans w end) (w_tries w) (w_next w) (w_answers w))).
      { intros s' <- F L. rewrite F, lookup_insert. apply (sh_fm _ _ _ (EvState id st)); [exact E|intros ? Hf; exact Hf|exact L| |done]. intros i. cbn [w_fm]. rewrite F.
        destruct (decide (i = id)) as [->|ne]; [rewrite lookup_insert, A; done|by rewrite lookup_insert_ne]. }
      assert (G : forall s', s = s' -> fm_faces s' = delete id (fm_faces (w_fm w)) -> fm_last s' = fm_last (w_fm w) ->
        shape w (WState id st) (World s (match fm_faces s !! id with None => map (forget id) (w_chans w) | Some _ => w_chans w end) (w_tries w) (w_next w) (w_answers w))).
      { intros s' <- F L. rewrite F, lookup_delete. apply (sh_gone _ _ _ id (EvState id st)); [exact E|intros ? Hf; exact Hf|exact L|exact F|rewrite A; eauto|done]. }
      destruct (mf_state f), st; try done; first [by eapply K|destruct H as (r & _ & H); first [by eapply (K _ H)|by eapply (G _ H)]].
  Qed.
  Lemma forget_keeps id c : ch_proto (forget id c) = ch_proto c /\ ch_v6 (forget id c) = ch_v6 c /\ ch_mark (forget id c) = ch_mark c /\ ch_idle (forget id c) = ch_idle c /\ ch_mtu (forget id c) = ch_mtu c /\
    ch_waiting (forget id c) = ch_waiting c.
  Proof. done. Qed.
  (** channels stay what they are *)
  Lemma shape_chans w e w' : shape w e w' -> forall k c, w_chans w !! k = Some c -> exists c', w_chans w' !! k = Some c' /\
    ch_proto c' = ch_proto c /\ ch_v6 c' = ch_v6 c /\ ch_mark c' = ch_mark c /\ ch_idle c' = ch_idle c /\ ch_mtu c' = ch_mtu c /\ (ch_waiting c = false -> ch_waiting c' = false).
  Proof.
    intros [F C|k' c' F Hc' C|k' c' r' fc id ev Hc' Hn' Hi S Ad O F L U C|ev S Ad L F C|id ev S Ad L F Hi C] k c Hc; rewrite C.
    - by exists c.
    - destruct (decide (k = k')) as [->|ne]; [|rewrite list_lookup_insert_ne by done; by exists c]. rewrite list_lookup_insert by (by eapply lookup_lt_Some).
      eexists. split; [reflexivity|]. assert (c' = c) as -> by congruence. done.
    - destruct (decide (k = k')) as [->|ne]; [|rewrite list_lookup_insert_ne by done; by exists c]. rewrite list_lookup_insert by (by eapply lookup_lt_Some).
      eexists. split; [reflexivity|]. assert (c' = c) as -> by congruence. done.
    - by exists c.
    - rewrite list_lookup_fmap, Hc. eexists. split; [reflexivity|]. done.
  Qed.
  (** what a step does to attempts and answers *)
  Inductive talk (w : world) (e : w_event) (w' : world) : Prop :=
  | tk_same (T : w_tries w' = w_tries w) (N : w_next w' = w_next w) (A : w_answers w' = w_answers w)
  | tk_now r (T : w_tries w' = w_tries w) (N : w_next w' = (w_next w + 1)%N) (A : w_answers w' = (w_next w, r) :: w_answers w)
  | tk_begin a (T : w_tries w' = partial_alter (fun _ => Some a) (w_next w) (w_tries w)) (N : w_next w' = (w_next w + 1)%N) (A : w_answers w' = w_answers w)
      (Pa : at_progress a = Waiting /\ at_timer a = true /\ at_open a = true) (Ca : exists c, w_chans w !! at_chan a = Some c /\ ch_proto c = Tcp)
      (Qa : request_of (at_params a) = inr (at_req a) /\ tcp_check (at_req a) (at_remote a) = Some None)
  | tk_moved n a x g (En : e = WFinished n x) (Eg : g = match x with Some l => Connected l | None => Errored end) (Ha : w_tries w !! n = Some a) (Pa : at_progress a = Waiting /\ g <> Waiting /\ g <> Aborted)
      (T : w_tries w' = partial_alter (fun _ => Some (Attempt (at_chan a) (at_remote a) (at_params a) (at_req a) g (at_timer a) (at_open a))) n (w_tries w)) (N : w_next w' = w_next w) (A : w_answers w' = w_answers w)
  | tk_late n a g r (En : e = WTimeout n) (Ha : w_tries w !! n = Some a) (Pa : at_timer a = true /\ (at_progress a = Waiting /\ g = Aborted \/ at_progress a <> Waiting /\ g = at_progress a))
      (T : w_tries w' = partial_alter (fun _ => Some (Attempt (at_chan a) (at_remote a) (at_params a) (at_req a) g false false)) n (w_tries w)) (N : w_next w' = w_next w) (A : w_answers w' = (n, r) :: w_answers w)
  | tk_end n a (o : option response) (Ha : w_tries w !! n = Some a) (Pa : at_progress a <> Waiting) (O : o = None <-> at_progress a = Aborted)
      (T : w_tries w' = delete n (w_tries w)) (N : w_next w' = w_next w) (A : w_answers w' = match o with Some r => (n, r) :: w_answers w | None => w_answers w end).
  Lemma over_talk k remote fc n p w w' : hand_over k remote fc n p w = Some w' -> exists r, w_tries w' = w_tries w /\ w_next w' = w_next w /\ w_answers w' = (n, r) :: w_answers w.
  Proof.
    unfold hand_over. destruct (w_chans w !! k) as [c|]; [|done]. destruct (ch_faces c !! remote) as [id|].
    - destruct (create_done p (MadeOld id) (w_fm w)) as [[s r]|]; [|done]. intros [= <-]. by exists r.
    - destruct (create_done p (MadeNew fc) (w_fm w)) as [[s r]|]; [|done]. intros [= <-]. by exists r.
  Qed.
  Lemma take_talk k remote fc w w' : take_in k remote fc w = Some w' -> w_tries w' = w_tries w /\ w_next w' = w_next w /\ w_answers w' = w_answers w.
  Proof.
    unfold take_in. destruct (w_chans w !! k) as [c|]; [|done]. destruct (ch_faces c !! remote) as [id|]; [by intros [= <-]|].
    destruct (add_face fc (w_fm w)) as [[s i]|]; [|done]. by intros [= <-].
  Qed.
  Lemma step_talk w e w' : w_step w e = Some w' -> talk w e w'.
  Proof.
    destruct e as [now p os|n r|n|n|k r|now k r os|now tag p|p|id st]; cbn [Ch_Model.w_step].
    - intros H. unfold Ch_Model.command in H. destruct (request_of p) as [r|q] eqn:Eq; [injection H as <-; by eapply tk_now|].
      destruct (proto_of (u_scheme (q_remote q))) as [[]|] eqn:Ep; [| |done].
      + set (remote := endpoint_of (q_remote q)) in *. destruct (tcp_check q remote) as [[]|] eqn:Et; [injection H as <-; by eapply tk_now| |done]. cbn [w_chans w_fm] in H.
        pose proof (find_chan_spec Tcp (a_v6 (e_addr remote)) (w_chans w) 0) as S.
        destruct (find_chan Tcp (a_v6 (e_addr remote)) 0 (w_chans w)) as [k|]; [|injection H as <-; by eapply tk_now].
        destruct S as (c & _ & F). rewrite Nat.sub_0_r in F. destruct F as (Hc & Hu & _). rewrite Hc in H.
        destruct (ch_faces c !! remote) as [id|] eqn:E.
        * destruct (create_done p (MadeOld id) (w_fm w)) as [[s r]|] eqn:D; [|done]. injection H as <-. by eapply tk_now.
        * injection H as <-. eapply tk_begin; [reflexivity|done|done|done|cbn; eauto|done].
      + set (remote := endpoint_of (q_remote q)) in *. destruct (udp_check q remote); [injection H as <-; by eapply tk_now|]. cbn [w_chans w_fm] in H.
        destruct (find_chan Udp (a_v6 (e_addr remote)) 0 (w_chans w)) as [k|]; [|injection H as <-; by eapply tk_now].
        destruct (w_chans w !! k) as [c|]; [|done].
        destruct (ch_faces c !! remote) as [id|] eqn:E.
        * destruct (create_done p (MadeOld id) (w_fm w)) as [[s r]|] eqn:D; [|done]. injection H as <-. by eapply tk_now.
        * destruct os as [local|]; [|injection H as <-; by eapply tk_now]. apply over_talk in H as (r & A & B & C). by eapply tk_now.
    - unfold finished. destruct (w_tries w !! n) as [[k e p q [] t []]|] eqn:E; try done. intros [= <-].
      eapply tk_moved; [reflexivity|reflexivity|exact E| |reflexivity|done|done]. cbn. by destruct r.
    - unfold timed_out. destruct (w_tries w !! n) as [[k e p q g [] o]|] eqn:E; try done. intros [= <-].
      eapply tk_late; [reflexivity|exact E| |reflexivity|done|reflexivity]. cbn. split; [done|]. destruct g; naive_solver.
    - unfold Ch_Model.handle_connect. destruct (w_tries w !! n) as [[k e p q g t o]|] eqn:E; [|done].
      destruct g as [| | |local]; [done|intros [= <-]; by eapply (tk_end _ _ _ n _ (Some _))|intros [= <-]; by eapply (tk_end _ _ _ n _ None)|].
      destruct o; [|intros [= <-]; by eapply (tk_end _ _ _ n _ (Some _))]. destruct (w_chans w !! k) as [c|]; [|done]. intros (r & A & B & C)%over_talk. by eapply (tk_end _ _ _ n _ (Some _)).
    - unfold accepted. destruct (w_chans w !! k) as [c|] eqn:Hc; [|done]. destruct (ch_proto c) eqn:Ep, (ch_waiting c) eqn:Ew; try done.
      destruct r as [[remote local]|]; [|intros [= <-]; by apply tk_same]. intros (A & B & C)%take_talk. by apply tk_same.
    - unfold new_peer. destruct (w_chans w !! k) as [c|] eqn:Hc; [|done]. destruct (ch_proto c) eqn:Ep, (ch_waiting c) eqn:Ew; try done.
      destruct r as [remote|]; [|intros [= <-]; by apply tk_same]. destruct (ch_faces c !! remote) eqn:Er; [intros [= <-]; by apply tk_same|].
      destruct os as [local|]; [|intros [= <-]; by apply tk_same]. intros (A & B & C)%take_talk. by apply tk_same.
    - intros H. destruct (update_face now tag p (w_fm w)) as [[s r]|] eqn:E; [|done]. injection H as <-. by apply tk_same.
    - intros [= <-]. by apply tk_same.
    - unfold transport_state. destruct (change_state id st (w_fm w)) as [s|] eqn:E; [|done]. intros [= <-]. by apply tk_same.
  Qed.
  Lemma tries_step w e w' : tries_ok w -> w_step w e = Some w' -> tries_ok w'.
  Proof.
    intros T H. pose proof (shape_chans w e w' (step_shape w e w' T H)) as SC.
    assert (C : forall k, (exists c, w_chans w !! k = Some c /\ ch_proto c = Tcp) -> exists c, w_chans w' !! k = Some c /\ ch_proto c = Tcp).
    { intros k (c & Hc & Hp). destruct (SC k c Hc) as (c' & Hc' & Hp' & _). exists c'. split; [done|congruence]. }
    clear SC. apply step_talk in H. destruct H as [Tr N A|r Tr N A|a Tr N A Pa Ca Qa|n a x g En Eg Ha Pa Tr N A|n a g r En Ha Pa Tr N A|n a o Ha Pa O Tr N A]; intros m b; rewrite Tr, N.
    - intros Hb. destruct (T _ _ Hb) as (? & ? & ?). eauto.
    - intros Hb. destruct (T _ _ Hb) as (? & ? & ?). split; [lia|]. eauto.
    - destruct (decide (m = w_next w)) as [->|ne]; [rewrite lookup_partial_alter; intros [= <-]|rewrite lookup_partial_alter_ne by done; intros Hb; destruct (T _ _ Hb) as (? & ? & ?); split; [lia|]; eauto].
      split; [lia|]. split; [eauto|]. split; [apply Qa|]. split; [apply Qa|]. destruct Pa as (P1 & P2 & P3). rewrite P1, P2, P3. done.
    - destruct (decide (m = n)) as [->|ne]; [rewrite lookup_partial_alter; intros [= <-]|rewrite lookup_partial_alter_ne by done; intros Hb; destruct (T _ _ Hb) as (? & ? & ?); eauto].
      destruct (T _ _ Ha) as (H1 & H2 & H3 & H4 & H5 & H6 & H7 & H8). cbn. split; [done|]. split; [eauto|]. split; [done|]. split; [done|]. destruct Pa as (P1 & P2 & P3).
      split; [by intros ?|]. split; [by intros ?|]. done.
    - destruct (decide (m = n)) as [->|ne]; [rewrite lookup_partial_alter; intros [= <-]|rewrite lookup_partial_alter_ne by done; intros Hb; destruct (T _ _ Hb) as (? & ? & ?); eauto].
      destruct (T _ _ Ha) as (H1 & H2 & H3 & H4 & H5 & H6 & H7 & H8). cbn. split; [done|]. split; [eauto|]. split; [done|]. split; [done|]. destruct Pa as (P1 & [(P2 & ->)|(P2 & ->)]).
      + done.
      + split; [by intros ?|]. done.
    - destruct (decide (m = n)) as [->|ne]; [by rewrite lookup_delete|rewrite lookup_delete_ne by done; intros Hb; destruct (T _ _ Hb) as (? & ? & ?); eauto].
  Qed.
  Lemma reach_ind (P : world -> Prop) cs :
    P (w_new cs) -> (forall w e w', P w -> tries_ok w -> w_step w e = Some w' -> P w') -> forall w, w_reachable cs w -> P w /\ tries_ok w.
  Proof.
    intros H0 HS w [l Hl]. revert w Hl. induction l as [|e l IH] using rev_ind; intros w Hl.
    - cbn in Hl. injection Hl as <-. split; [done|]. intros n a. cbn. by rewrite lookup_empty.
    - rewrite w_run_app in Hl. destruct (w_run (w_new cs) l) as [w1|] eqn:E; [|done]. destruct (IH w1 eq_refl) as [P1 T1]. split; [by eapply HS|by eapply tries_step].
  Qed.
  (** all that was proved of the face manager holds here, and faces expire exactly if they are on-demand UDP faces with an idle timeout *)
  Theorem C75_manager cs w :
    w_reachable cs w -> fm_reachable (w_fm w) /\ (forall id fc, fm_faces (w_fm w) !! id = Some fc -> expiry_ok fc).
  Proof.
    intros H. assert (R : exists l, fm_run fm_new l = Some (w_fm w) /\ Forall (fun e => forall fc, adds e fc -> expiry_ok fc) l).
    { revert w H. apply (reach_ind (fun w => exists l, fm_run fm_new l = Some (w_fm w) /\ Forall (fun e => forall fc, adds e fc -> expiry_ok fc) l)); [exists []; split; [done|by apply Forall_nil]|].
      intros w e w' (l & Hl & Fl) T S. apply (step_shape w e w' T) in S.
      destruct S as [F C|k' c' F Hc' C|k' c' r' fc id ev Hc' Hn' Hi S Ad O F L U C|ev S Ad L F C|id ev S Ad L F Hi C].
      - rewrite F. eauto.
      - rewrite F. eauto.
      - exists (l ++ [ev]). rewrite run_app, Hl. split; [done|]. apply Forall_app. split; [done|]. apply Forall_cons. split; [|by apply Forall_nil]. intros f ->%Ad.
        unfold expiry_ok. destruct O as [(now & c & q & r & lo & ->)|[(c & r & lo & u & ->)|(n & k & r & p & q & t & lo & c & _ & _ & ->)]]; cbn.
        + destruct (decide (q_persist q = OnDemand)); [destruct (Z.ltb_spec 0 (ch_idle c))|]; (split; [intros [??]; try done; eauto|intros (i & [= <-] & ? & ?); try lia; eauto; try done]).
        + split; [by intros [??]|by intros (? & [=] & _)].
        + split; [by intros [??]|by intros (? & [=] & _)].
      - exists (l ++ [ev]). rewrite run_app, Hl. split; [done|]. apply Forall_app. split; [done|]. apply Forall_cons. split; [|by apply Forall_nil]. intros f Hf. by destruct (Ad f).
      - exists (l ++ [ev]). rewrite run_app, Hl. split; [done|]. apply Forall_app. split; [done|]. apply Forall_cons. split; [|by apply Forall_nil]. intros f Hf. by destruct (Ad f). }
    destruct R as (l & Hl & Fl). split; [by exists l|]. intros id fc. by apply (C74_expiry l).
  Qed.

  (** ** One face per channel and remote endpoint *)
  (** that face is the one of channel [k] for remote endpoint [e] *)
  Definition belongs (w : world) (id : N) (k : nat) (e : endpoint) : Prop := exists c, w_chans w !! k = Some c /\ ch_faces c !! e = Some id.
  Definition linked (w : world) : Prop :=
    (forall id k e, belongs w id k e -> exists c fc, w_chans w !! k = Some c /\ fm_faces (w_fm w) !! id = Some fc /\ mf_remote fc = uri_of (ch_proto c) e) /\
    (forall id, is_Some (fm_faces (w_fm w) !! id) -> exists k e, belongs w id k e) /\
    (forall id k e k' e', belongs w id k e -> belongs w id k' e' -> k = k' /\ e = e').
  Lemma linked_same w w' :
    (forall k c', w_chans w' !! k = Some c' -> exists c, w_chans w !! k = Some c /\ ch_faces c' = ch_faces c /\ ch_proto c' = ch_proto c) ->
    (forall k c, w_chans w !! k = Some c -> exists c', w_chans w' !! k = Some c' /\ ch_faces c' = ch_faces c /\ ch_proto c' = ch_proto c) ->
    (forall id, mf_remote <$> fm_faces (w_fm w') !! id = mf_remote <$> fm_faces (w_fm w) !! id) -> linked w -> linked w'.
  Proof.
    intros B1 B2 F (H1 & H2 & H3).
    assert (B : forall id k e, belongs w' id k e <-> belongs w id k e).
    { intros id k e. split; intros (c & Hc & He).
      - destruct (B1 k c Hc) as (c' & Hc' & E1 & _). exists c'. split; [done|congruence].
      - destruct (B2 k c Hc) as (c' & Hc' & E1 & _). exists c'. split; [done|congruence]. }
    split; [|split].
    - intros id k e Hb%B. destruct (H1 id k e Hb) as (c & fc & Hc & Hf & U). destruct (B2 k c Hc) as (c' & Hc' & _ & Ep). exists c'.
      specialize (F id). rewrite Hf in F. destruct (fm_faces (w_fm w') !! id) as [fc'|] eqn:E; [|done]. injection F as F. exists fc'. split; [done|]. split; [done|]. congruence.
    - intros id [fc' Hf]. specialize (F id). rewrite Hf in F. destruct (fm_faces (w_fm w) !! id) as [fc|] eqn:E; [|done]. destruct (H2 id) as (k & e & Hb); [rewrite E; eauto|]. exists k, e. by apply B.
    - intros id k e k' e' A1%B A2%B. by eapply H3.
  Qed.
  Lemma linked_step w e w' : linked w -> shape w e w' -> linked w'.
  Proof.
    intros Hl S. destruct S as [F C|k0 c0 F Hc0 C|k0 c0 r0 fc0 id0 ev Hc0 Hn0 Hi S Ad O F L U C|ev S Ad L F C|id0 ev S Ad L F Hi C].
    - eapply (linked_same w); [rewrite C; eauto|rewrite C; eauto|by rewrite F|done].
    - eapply (linked_same w); [| |by rewrite F|done]; rewrite C; intros k c Hc.
      + destruct (decide (k = k0)) as [->|ne]; [|rewrite list_lookup_insert_ne in Hc by done; eauto].
        rewrite list_lookup_insert in Hc by (by eapply lookup_lt_Some). injection Hc as <-. by exists c0.
      + destruct (decide (k = k0)) as [->|ne]; [|rewrite list_lookup_insert_ne by done; eauto].
        rewrite list_lookup_insert by (by eapply lookup_lt_Some). eexists. split; [reflexivity|]. assert (c = c0) as -> by congruence. done.
    - destruct Hl as (H1 & H2 & H3).
      assert (Hlt : k0 < length (w_chans w)) by (by eapply lookup_lt_Some).
      assert (B : forall id k e, belongs w' id k e <-> (id = id0 /\ k = k0 /\ e = r0) \/ belongs w id k e).
      { intros id k e1. unfold belongs. rewrite C. destruct (decide (k = k0)) as [->|ne].
        - rewrite list_lookup_insert by done. split.
          + intros (c & [= <-] & He). cbn in He. destruct (decide (e1 = r0)) as [->|ne]; [rewrite lookup_insert in He; injection He as <-; by left|].
            rewrite lookup_insert_ne in He by done. right. eauto.
          + intros [(-> & _ & ->)|(c & Hc & He)]; (eexists; split; [reflexivity|]); cbn; [by rewrite lookup_insert|].
            assert (c = c0) as -> by congruence. destruct (decide (e1 = r0)) as [->|ne]; [congruence|]. by rewrite lookup_insert_ne.
        - rewrite list_lookup_insert_ne by done. naive_solver. }
      assert (Hno : forall k e, ~ belongs w id0 k e).
      { intros k e1 Hb. destruct (H1 _ _ _ Hb) as (c & fc & _ & Hf & _). congruence. }
      split; [|split].
      + intros id k e1 [(-> & -> & ->)|Hb]%B.
        * rewrite C, F, list_lookup_insert, lookup_insert by done. eexists _, _. split; [reflexivity|]. split; [reflexivity|]. done.
        * destruct (H1 _ _ _ Hb) as (c & fc & Hc & Hf & Hu). rewrite F. assert (id <> id0) by congruence. rewrite lookup_insert_ne by done.
          rewrite C. destruct (decide (k = k0)) as [->|ne]; [|rewrite list_lookup_insert_ne by done; eauto].
          rewrite list_lookup_insert by done. eexists _, _. split; [reflexivity|]. split; [done|]. assert (c = c0) as -> by congruence. done.
      + intros id. rewrite F. destruct (decide (id = id0)) as [->|ne].
        * intros _. exists k0, r0. apply B. by left.
        * rewrite lookup_insert_ne by done. intros Hf. destruct (H2 _ Hf) as (k & e1 & Hb). exists k, e1. apply B. by right.
      + intros id k e1 k' e1' A1%B A2%B. destruct A1 as [(E1 & E2 & E3)|A1], A2 as [(G1 & G2 & G3)|A2]; [split; congruence|subst id; by destruct (Hno k' e1')|subst id; by destruct (Hno k e1)|by eapply H3].
    - eapply (linked_same w); [rewrite C; eauto|rewrite C; eauto|exact F|done].
    - destruct Hl as (H1 & H2 & H3).
      assert (B : forall id k e, belongs w' id k e <-> id <> id0 /\ belongs w id k e).
      { intros id k e1. unfold belongs. rewrite C, list_lookup_fmap. split.
        - intros (c & Hc & He). apply fmap_Some in Hc as (c1 & Hc1 & ->). unfold forget, set_ch_faces in He. cbn in He. apply map_filter_lookup_Some in He as [He Hne]. cbn in Hne. eauto.
        - intros (Hne & c & Hc & He). rewrite Hc. eexists. split; [reflexivity|]. unfold forget, set_ch_faces. cbn. apply map_filter_lookup_Some. done. }
      split; [|split].
      + intros id k e1 (Hne & Hb)%B. destruct (H1 _ _ _ Hb) as (c & fc & Hc & Hf & Hu). rewrite C, F, list_lookup_fmap, Hc, lookup_delete_ne by done. eexists _, _. split; [reflexivity|]. done.
      + intros id [fc Hf]. rewrite F in Hf. apply lookup_delete_Some in Hf as [Hne Hf]. destruct (H2 id) as (k & e1 & Hb); [rewrite Hf; eauto|]. exists k, e1. by apply B.
      + intros id k e1 k' e1' (_ & A1)%B (_ & A2)%B. by eapply H3.
  Qed.
  Lemma linked_new cs : linked (w_new cs).
  Proof.
    assert (N : forall id k e, ~ belongs (w_new cs) id k e).
    { intros id k e (c & Hc & He). cbn in Hc. rewrite list_lookup_fmap in Hc. apply fmap_Some in Hc as (c1 & _ & ->). cbn in He. by rewrite lookup_empty in He. }
    split; [|split]; [intros id k e Hb; by destruct (N id k e)|intros id [??]; done|intros id k e k' e' Hb; by destruct (N id k e)].
  Qed.
  (** At every time each face of TCP and UDP channels belongs to one channel, and a channel has at most one face for a remote endpoint. *)
  Theorem C75_one cs w :
    w_reachable cs w ->
    (forall id, is_Some (fm_faces (w_fm w) !! id) <-> exists k e, belongs w id k e) /\
    (forall id k e fc, belongs w id k e -> fm_faces (w_fm w) !! id = Some fc -> exists c, w_chans w !! k = Some c /\ mf_remote fc = uri_of (ch_proto c) e) /\
    (forall id k e k' e', belongs w id k e -> belongs w id k' e' -> k = k' /\ e = e') /\
    (forall id id' k e, belongs w id k e -> belongs w id' k e -> id = id').
  Proof.
    intros R. assert (L : linked w).
    { apply (reach_ind linked cs); [| |exact R].
      - assert (N : forall id k e, ~ belongs (w_new cs) id k e).
        { intros id k e (c & Hc & He). cbn in Hc. rewrite list_lookup_fmap in Hc. apply fmap_Some in Hc as (c1 & _ & ->). cbn in He. by rewrite lookup_empty in He. }
        split; [|split]; [intros id k e Hb; by destruct (N id k e)|intros id [??]; done|intros id k e k' e' Hb; by destruct (N id k e)].
      - intros w0 e w1 L0 T S. eapply linked_step; [exact L0|]. by apply step_shape. }
    destruct L as (H1 & H2 & H3). split; [|split; [|split]].
    - intros id. split; [apply H2|]. intros (k & e & Hb). destruct (H1 _ _ _ Hb) as (c & fc & _ & Hf & _). eauto.
    - intros id k e fc Hb Hf. destruct (H1 _ _ _ Hb) as (c & fc' & Hc & Hf' & Hu). exists c. split; [done|congruence].
    - exact H3.
    - intros id id' k e (c & Hc & He) (c' & Hc' & He'). congruence.
  Qed.
  (** So with one channel, no two faces have the same remote URI. *)
  Theorem C75_one_uri c w id id' fc fc' :
    (forall p e e', uri_of p e = uri_of p e' -> e = e') -> w_reachable [c] w ->
    fm_faces (w_fm w) !! id = Some fc -> fm_faces (w_fm w) !! id' = Some fc' -> mf_remote fc = mf_remote fc' -> id = id'.
  Proof.
    intros Inj R Hf Hf' Hu. destruct (C75_one _ _ R) as (H1 & H2 & _ & H4).
    assert (Hk : forall k c, w_chans w !! k = Some c -> k = 0).
    { assert (Hlen : length (w_chans w) = 1).
      { apply (reach_ind (fun w => length (w_chans w) = 1) [c]); [done| |exact R]. intros w0 e w1 L T S%step_shape; [|done].
        destruct S as [F C|k0 c0 F Hc0 C|k0 c0 r0 fc0 id0 ev Hc0 Hn0 Hi S Ad O F Lx U C|ev S Ad Lx F C|id0 ev S Ad Lx F Hi C]; rewrite C, ?insert_length, ?map_length; done. }
      intros k d Hd%lookup_lt_Some. lia. }
    destruct (proj1 (H1 id)) as (k & e & Hb); [eauto|]. destruct (proj1 (H1 id')) as (k' & e' & Hb'); [eauto|].
    destruct (H2 _ _ _ _ Hb Hf) as (d & Hd & U). destruct (H2 _ _ _ _ Hb' Hf') as (d' & Hd' & U').
    assert (k = 0) as -> by eauto. assert (k' = 0) as -> by eauto. assert (d' = d) as -> by congruence.
    assert (e = e') as -> by (apply (Inj (ch_proto d)); congruence). by eapply H4.
  Qed.

  (** ** Answers *)
  Fixpoint answers_to (n : N) (l : list (N * response)) : nat :=
    match l with [] => 0 | (m, _) :: l' => (if (m =? n)%N then 1 else 0) + answers_to n l' end.
  Definition fair (w : world) : Prop :=
    forall n, match w_tries w !! n with
              | Some a => (n < w_next w)%N /\ answers_to n (w_answers w) = (if at_timer a then 0 else 1)
              | None => if (n <? w_next w)%N then 1 <= answers_to n (w_answers w) <= 2 else answers_to n (w_answers w) = 0
              end.
  Lemma fair_step w e w' : fair w -> tries_ok w -> talk w e w' -> fair w'.
  Proof.
    intros F T K n. pose proof (F n) as Fn.
    destruct K as [Tr N A|r Tr N A|a Tr N A Pa Ca Qa|m a x g En Eg Ha Pa Tr N A|m a g r En Ha Pa Tr N A|m a o Ha Pa O Tr N A]; rewrite Tr, N, A.
    - done.
    - cbn [answers_to]. destruct (N.eqb_spec (w_next w) n) as [<-|ne].
      + destruct (w_tries w !! w_next w); [lia|]. destruct (N.ltb_spec (w_next w) (w_next w)); [lia|]. destruct (N.ltb_spec (w_next w) (w_next w + 1)); lia.
      + destruct (w_tries w !! n) as [b|]; [split; [lia|apply Fn]|]. destruct (N.ltb_spec n (w_next w)), (N.ltb_spec n (w_next w + 1)); lia.
    - destruct (decide (n = w_next w)) as [->|ne].
      + rewrite lookup_partial_alter. destruct Pa as (_ & -> & _). split; [lia|]. destruct (w_tries w !! w_next w); [lia|]. by destruct (N.ltb_spec (w_next w) (w_next w)); [lia|].
      + rewrite lookup_partial_alter_ne by done. destruct (w_tries w !! n) as [b|]; [split; [lia|apply Fn]|]. destruct (N.ltb_spec n (w_next w)), (N.ltb_spec n (w_next w + 1)); lia.
    - destruct (decide (n = m)) as [->|ne]; [rewrite lookup_partial_alter; cbn [at_timer]; by rewrite Ha in Fn|]. by rewrite lookup_partial_alter_ne.
    - cbn [answers_to]. destruct (decide (n = m)) as [->|ne].
      + rewrite lookup_partial_alter, N.eqb_refl. cbn [at_timer]. rewrite Ha in Fn. destruct Pa as [Pt _]. rewrite Pt in Fn. destruct Fn as [? ->]. done.
      + rewrite lookup_partial_alter_ne by done. destruct (N.eqb_spec m n); [congruence|]. done.
    - destruct (decide (n = m)) as [->|ne].
      + rewrite lookup_delete. rewrite Ha in Fn. destruct Fn as [Hlt Fn]. apply N.ltb_lt in Hlt. rewrite Hlt. destruct o as [r|].
        * cbn [answers_to]. rewrite N.eqb_refl, Fn. destruct (at_timer a); lia.
        * destruct (T _ _ Ha) as (_ & _ & _ & _ & _ & Hab & _). rewrite Hab in Fn by (by apply O). lia.
      + rewrite lookup_delete_ne by done. destruct o as [r|]; [|done]. cbn [answers_to]. destruct (N.eqb_spec m n); [congruence|]. done.
  Qed.
  Lemma fair_new cs : fair (w_new cs).
  Proof. intros m. cbn [w_new w_tries w_next w_answers answers_to]. rewrite lookup_empty. destruct (N.ltb_spec m 0); [lia|done]. Qed.
  (** Every create command is answered: after it has been given and while no connection attempt is under way for it there is an answer, and there are never more than two. *)
  Theorem C75_answered cs w n :
    w_reachable cs w ->
    ((n < w_next w)%N -> w_tries w !! n = None -> 1 <= answers_to n (w_answers w)) /\ answers_to n (w_answers w) <= 2 /\ ((w_next w <= n)%N -> answers_to n (w_answers w) = 0).
  Proof.
    intros R. destruct (reach_ind fair cs) with (w := w) as [F T]; [| |exact R|].
    - apply fair_new.
    - intros w0 e w1 F T S. eapply fair_step; [done|done|]. by eapply step_talk.
    - specialize (F n). destruct (w_tries w !! n) as [a|] eqn:E.
      + split; [done|]. split; [destruct (at_timer a); lia|]. lia.
      + destruct (N.ltb_spec n (w_next w)); lia.
  Qed.
  (** There is exactly one answer if timeouts do not come when the operating system is done with the attempt, but its handler has not run. *)
  Fixpoint prompt_run (w : world) (l : list w_event) : Prop :=
    match l with
    | [] => True
    | e :: l' => match e with WTimeout n => exists a, w_tries w !! n = Some a /\ at_progress a = Waiting | _ => True end /\ match w_step w e with Some w' => prompt_run w' l' | None => True end
    end.
  Theorem C75_once_partial cs l w n :
    w_run (w_new cs) l = Some w -> prompt_run (w_new cs) l -> (n < w_next w)%N -> w_tries w !! n = None -> answers_to n (w_answers w) = 1.
  Proof.
    set (P := fun w => forall n, match w_tries w !! n with
              | Some a => (at_timer a = false -> at_progress a = Aborted)
              | None => (n < w_next w)%N -> answers_to n (w_answers w) = 1
              end).
    assert (G : forall l w0 w, fair w0 -> tries_ok w0 -> P w0 -> w_run w0 l = Some w -> prompt_run w0 l -> P w).
    { clear. intros l. induction l as [|e l IH]; intros w0 w F T P0 H Q; [by injection H as <-|]. cbn in H, Q. destruct Q as [Q0 Q]. destruct (w_step w0 e) as [w1|] eqn:E; [|done].
      pose proof (step_talk _ _ _ E) as K. apply (IH w1 w); [by eapply fair_step|by eapply tries_step| |done|done].
      clear IH H Q l. intros n. specialize (P0 n). pose proof (F n) as Fn.
      destruct K as [Tr N A|r Tr N A|a Tr N A Pa Ca Qa|m a x g En Eg Ha Pa Tr N A|m a g r En Ha Pa Tr N A|m a o Ha Pa O Tr N A].
      - by rewrite Tr, N, A.
      - rewrite Tr, N, A. destruct (w_tries w0 !! n) as [b|] eqn:Eb; [done|]. intros Hn. cbn [answers_to]. destruct (N.eqb_spec (w_next w0) n) as [<-|ne].
        + destruct (N.ltb_spec (w_next w0) (w_next w0)); [lia|]. by rewrite Fn.
        + apply P0. lia.
      - rewrite Tr, N, A. destruct (decide (n = w_next w0)) as [->|ne]; [rewrite lookup_partial_alter; destruct Pa as (_ & -> & _); done|].
        rewrite lookup_partial_alter_ne by done. destruct (w_tries w0 !! n); [done|]. intros Hn. apply P0. lia.
      - rewrite Tr, N, A. destruct (decide (n = m)) as [->|ne]; [rewrite lookup_partial_alter|by rewrite lookup_partial_alter_ne]. cbn. intros Ht. rewrite Ha in P0. rewrite P0 in Pa by done. by destruct Pa.
      - subst e. destruct Q0 as (a' & Ha' & Pw). assert (a' = a) as -> by congruence. destruct Pa as [Pt Pg]. assert (g = Aborted) as -> by (destruct Pg as [[_ ?]|[? _]]; [done|congruence]).
        rewrite Tr, N, A. destruct (decide (n = m)) as [->|ne]; [rewrite lookup_partial_alter; done|]. rewrite lookup_partial_alter_ne by done.
        cbn [answers_to]. destruct (N.eqb_spec m n); [congruence|]. done.
      - rewrite Tr, N, A. destruct (decide (n = m)) as [->|ne].
        + rewrite lookup_delete. intros _. rewrite Ha in Fn, P0. destruct Fn as [_ Fn]. destruct (T _ _ Ha) as (_ & _ & _ & _ & _ & Hab & _). destruct (at_timer a) eqn:Et.
          * destruct o as [r|]; [cbn [answers_to]; by rewrite N.eqb_refl, Fn|]. exfalso. assert (true = false) by (by apply Hab, O). done.
          * assert (o = None) as -> by (by apply O, P0). exact Fn.
        + rewrite lookup_delete_ne by done. destruct (w_tries w0 !! n); [done|]. intros Hn. destruct o as [r|]; [|by apply P0]. cbn [answers_to]. destruct (N.eqb_spec m n); [congruence|]. by apply P0. }
    intros H Q Hn Ht. assert (Pw : P w).
    { apply (G l (w_new cs) w); [apply fair_new|intros m a; cbn; by rewrite lookup_empty| |done|done]. intros m. cbn [w_new w_tries w_next w_answers]. rewrite lookup_empty. lia. }
    specialize (Pw n). rewrite Ht in Pw. by apply Pw.
  Qed.

  (** ** Local fields, and assertions *)
  (** what the operating system and the configuration are assumed to be like: a connection to a loopback address comes from one, and loopback addresses are local *)
  Fixpoint sane_run (w : world) (l : list w_event) : Prop :=
    match l with
    | [] => True
    | e :: l' =>
        match e with WFinished n (Some lo) => forall a, w_tries w !! n = Some a -> loopback (e_addr (at_remote a)) = true -> loopback (e_addr lo) = true | _ => True end /\
        match w_step w e with Some w' => sane_run w' l' | None => True end
    end.
  Definition heard (w : world) : Prop :=
    forall n a lo, w_tries w !! n = Some a -> at_progress a = Connected lo -> loopback (e_addr (at_remote a)) = true -> loopback (e_addr lo) = true.
  Definition proper (w : world) : Prop :=
    tries_ok w /\ heard w /\ linked w /\ exists l, fm_run fm_new l = Some (w_fm w) /\ Forall (fun e => forall fc, adds e fc -> local_ok fc) l.
  Lemma proper_run cs l w : (forall a, loopback a = true -> is_local a = true) -> w_run (w_new cs) l = Some w -> sane_run (w_new cs) l -> proper w.
  Proof.
    intros HL. assert (G : forall l w0 w, proper w0 -> w_run w0 l = Some w -> sane_run w0 l -> proper w).
    { clear l w. intros l. induction l as [|e l IH]; intros w0 w P H Q; [by injection H as <-|]. cbn in H, Q. destruct Q as [Q0 Q]. destruct (w_step w0 e) as [w1|] eqn:E; [|done].
      apply (IH w1 w); [|done|done]. clear IH H Q l. destruct P as (T & Hd & Lk & l & Hl & Fl). pose proof (step_shape _ _ _ T E) as S. pose proof (step_talk _ _ _ E) as K.
      split; [by eapply tries_step|]. split; [|split; [by eapply linked_step|]].
      - intros n b lo. destruct K as [Tr N A|r Tr N A|a Tr N A Pa Ca Qa|m a x g En Eg Ha Pa Tr N A|m a g r En Ha Pa Tr N A|m a o Ha Pa O Tr N A]; rewrite Tr.
        + apply Hd.
        + apply Hd.
        + destruct (decide (n = w_next w0)) as [->|ne]; [rewrite lookup_partial_alter; intros [= <-]; destruct Pa as (-> & _); done|rewrite lookup_partial_alter_ne by done; apply Hd].
        + destruct (decide (n = m)) as [->|ne]; [rewrite lookup_partial_alter; intros [= <-]|rewrite lookup_partial_alter_ne by done; apply Hd]. cbn.
          subst e g. destruct x as [lo'|]; [|done]. intros [= <-]. by apply Q0.
        + destruct (decide (n = m)) as [->|ne]; [rewrite lookup_partial_alter; intros [= <-]|rewrite lookup_partial_alter_ne by done; apply Hd]. cbn.
          destruct Pa as [_ [[_ ->]|[_ ->]]]; [done|]. by apply Hd with (n := m).
        + destruct (decide (n = m)) as [->|ne]; [by rewrite lookup_delete|rewrite lookup_delete_ne by done; apply Hd].
      - destruct S as [F C|k' c' F Hc' C|k' c' r' fc id ev Hc' Hn' Hi S Ad O F L U C|ev S Ad L F C|id ev S Ad L F Hi C].
        + rewrite F. eauto.
        + rewrite F. eauto.
        + exists (l ++ [ev]). rewrite run_app, Hl. split; [done|]. apply Forall_app. split; [done|]. apply Forall_cons. split; [|by apply Forall_nil]. intros f ->%Ad.
          unfold local_ok. intros o. destruct O as [(now & c & q & r & lo & ->)|[(c & r & lo & u & ->)|(n & k & r & p & q & t & lo & c & _ & Ht & ->)]]; cbn; [by intros [= <-]|by intros [= <-]|].
          intros [= <-]. cbn. intros Hq. destruct (T _ _ Ht) as (_ & _ & _ & Ck & _). cbn in Ck. specialize (Hd _ _ lo Ht eq_refl). cbn in Hd.
          assert (Hr : loopback (e_addr r) = true).
          { unfold tcp_check in Ck. destruct (q_local q); [done|]. destruct (decide (q_persist q = OnDemand)); [done|]. destruct (multicast (e_addr r)); [done|]. rewrite Hq in Ck. by destruct (loopback (e_addr r)). }
          rewrite (HL _ Hr), (HL _ (Hd Hr)). done.
        + exists (l ++ [ev]). rewrite run_app, Hl. split; [done|]. apply Forall_app. split; [done|]. apply Forall_cons. split; [|by apply Forall_nil]. intros f Hf. by destruct (Ad f).
        + exists (l ++ [ev]). rewrite run_app, Hl. split; [done|]. apply Forall_app. split; [done|]. apply Forall_cons. split; [|by apply Forall_nil]. intros f Hf. by destruct (Ad f). }
    apply G. split; [intros m a; cbn; by rewrite lookup_empty|]. split; [intros m a lo; cbn; by rewrite lookup_empty|]. split; [apply linked_new|].
    exists []. split; [done|by apply Forall_nil].
  Qed.
  (** Local fields are on only on faces of local scope. *)
  Theorem C75_local cs l w id fc :
    (forall a, loopback a = true -> is_local a = true) -> w_run (w_new cs) l = Some w -> sane_run (w_new cs) l -> fm_faces (w_fm w) !! id = Some fc -> local_ok fc.
  Proof. intros HL H Q. destruct (proper_run _ _ _ HL H Q) as (_ & _ & _ & l' & Hl & Fl). by apply (C74_local l'). Qed.
  (** what may happen next: operating system, timers and queued handlers *)
  Definition possible (w : world) (e : w_event) : Prop :=
    match e with
    | WFinished n _ => exists a, w_tries w !! n = Some a /\ at_progress a = Waiting
    | WTimeout n => exists a, w_tries w !! n = Some a /\ at_timer a = true
    | WHandle n => exists a, w_tries w !! n = Some a /\ at_progress a <> Waiting
    | WAccepted k _ => exists c, w_chans w !! k = Some c /\ ch_proto c = Tcp /\ ch_waiting c = true
    | WPeer _ k _ _ => exists c, w_chans w !! k = Some c /\ ch_proto c = Udp /\ ch_waiting c = true
    | WState id st => exists fc, fm_faces (w_fm w) !! id = Some fc /\ (mf_state fc = st \/ may_become (mf_state fc) st = true)
    | _ => True
    end.
  (** Whatever happens next is handled, without a failed assertion, if the canonical TCP URIs are not multicast ones and the identifiers are not exhausted. *)
  Theorem C75_defined cs l w e :
    (forall a, loopback a = true -> is_local a = true) ->
    (forall u, canonical u = true -> proto_of (u_scheme u) = Some Tcp -> multicast (e_addr (endpoint_of u)) = false) ->
    w_run (w_new cs) l = Some w -> sane_run (w_new cs) l -> (fm_last (w_fm w) < 2 ^ 64 - 1)%N -> possible w e -> is_Some (w_step w e).
  Proof.
    intros HL HM H Q Hlast Po. destruct (proper_run _ _ _ HL H Q) as (T & Hd & (K1 & _ & _) & l' & Hl & _).
    assert (To : told (w_fm w)).
    { eapply (run_ind (fun _ => True)); [apply told_new|intros ????; by eapply told_step|apply run_any|exact Hl]. }
    destruct To as (B1 & B2 & _). assert (Add : forall fc, is_Some (add_face fc (w_fm w))).
    { intros fc. unfold add_face. rewrite N.mod_small by lia. destruct (N.leb_spec (fm_last (w_fm w) + 1) 255); [lia|].
      destruct (fm_faces (w_fm w) !! (fm_last (w_fm w) + 1)%N) as [f|] eqn:Ef; [|eauto]. specialize (B2 _ (ex_intro _ f Ef)). lia. }
    assert (Old : forall k c r id p, w_chans w !! k = Some c -> ch_faces c !! r = Some id -> is_Some (create_done p (MadeOld id) (w_fm w))).
    { intros k c r id p Hc Hr. destruct (K1 id k r) as (_ & fc & _ & Hf & _); [by exists c|]. cbn. rewrite Hf. eauto. }
    assert (Over : forall k r fc n p w2, w_chans w2 = w_chans w -> w_fm w2 = w_fm w -> is_Some (w_chans w !! k) -> mf_is_local fc = true \/ is_true (p_lf p) = false -> is_Some (hand_over k r fc n p w2)).
    { intros k r fc n p w2 E1 E2 [c Hc] Hlf. unfold hand_over. rewrite E1, E2, Hc. destruct (ch_faces c !! r) as [id|] eqn:E.
      - destruct (Old k c r id p Hc E) as [[s x] ->]. eauto.
      - cbn [create_done]. assert (mf_is_local fc || negb (is_true (p_lf p)) = true) as ->.
        { destruct Hlf as [E3|E3]; rewrite E3; [done|]. by rewrite orb_true_r. }
        destruct (Add fc) as [[s x] ->]. eauto. }
    assert (Take : forall k r fc, is_Some (w_chans w !! k) -> is_Some (take_in k r fc w)).
    { intros k r fc [c Hc]. unfold take_in. rewrite Hc. destruct (ch_faces c !! r); [eauto|]. destruct (Add fc) as [[s x] ->]. eauto. }
    assert (Lf : forall p q, request_of p = inr q -> q_lf q = is_true (p_lf p) /\ canonical (q_remote q) = true /\ is_Some (proto_of (u_scheme (q_remote q)))).
    { intros p q. unfold create_request. destruct (parse (p_uri p)) as [u|]; [|done]. destruct (canonical u) eqn:Ec; [cbn [negb]|done].
      destruct (match p_local_uri p with None => Some None | Some t => _ end) as [lo|]; [|done]. destruct (proto_of (u_scheme u)) eqn:Ep; [|done]. cbn. intros [= <-]. cbn. rewrite Ep. eauto. }
    destruct e as [now p os|n r|n|n|k r|now k r os|now tag p|p|id st]; cbn [Ch_Model.w_step].
    - unfold Ch_Model.command. destruct (request_of p) as [r|q] eqn:Eq; [eauto|]. destruct (Lf p q Eq) as (L1 & L2 & [pr L3]). rewrite L3. set (remote := endpoint_of (q_remote q)). cbn [w_chans w_fm].
      destruct pr.
      + destruct (tcp_check q remote) as [[code|]|] eqn:Et; [eauto| |].
        * pose proof (find_chan_spec Tcp (a_v6 (e_addr remote)) (w_chans w) 0) as S. destruct (find_chan Tcp (a_v6 (e_addr remote)) 0 (w_chans w)) as [k|]; [|eauto].
          destruct S as (c & _ & Hc & _). rewrite Nat.sub_0_r in Hc. rewrite Hc. destruct (ch_faces c !! remote) as [id|] eqn:E; [|eauto]. destruct (Old k c remote id p Hc E) as [[s x] ->]. eauto.
        * exfalso. unfold tcp_check in Et. destruct (q_local q); [done|]. destruct (decide (q_persist q = OnDemand)); [done|]. unfold remote in Et. rewrite (HM _ L2 L3) in Et.
          destruct (q_lf q && _); [done|]. by destruct (q_mtu q).
      + destruct (udp_check q remote) as [code|] eqn:Et; [eauto|].
        pose proof (find_chan_spec Udp (a_v6 (e_addr remote)) (w_chans w) 0) as S. destruct (find_chan Udp (a_v6 (e_addr remote)) 0 (w_chans w)) as [k|]; [|eauto].
        destruct S as (c & _ & Hc & _). rewrite Nat.sub_0_r in Hc. rewrite Hc. destruct (ch_faces c !! remote) as [id|] eqn:E.
        * destruct (Old k c remote id p Hc E) as [[s x] ->]. eauto.
        * destruct os as [lo|]; [|eauto]. apply Over; [done|done|eauto|]. right. rewrite <- L1. unfold udp_check in Et. destruct (q_local q); [done|]. destruct (decide (q_persist q = OnDemand)); [done|].
          destruct (multicast (e_addr remote)); [done|]. by destruct (q_lf q).
    - destruct Po as ([k e p q g t o] & Ha & Hg). cbn in Hg. subst g. destruct (T _ _ Ha) as (_ & _ & _ & _ & X & _). destruct (X eq_refl) as [_ Ho]. cbn in Ho. subst o. unfold finished. rewrite Ha. eauto.
    - destruct Po as ([k e p q g t o] & Ha & Ht). cbn in Ht. subst t. unfold timed_out. rewrite Ha. eauto.
    - destruct Po as ([k e p q g t o] & Ha & Hg). cbn in Hg. unfold Ch_Model.handle_connect. rewrite Ha. destruct g as [| | |lo]; [done|eauto|eauto|]. destruct o; [|eauto].
      destruct (T _ _ Ha) as (_ & (c & Hc & _) & Rq & Ck & _). cbn in Hc, Rq, Ck. rewrite Hc. apply Over; [done|done|eauto|]. destruct (Lf p q Rq) as (L1 & _ & _). rewrite <- L1. destruct (q_lf q) eqn:Eq; [left|by right].
      specialize (Hd _ _ lo Ha eq_refl). cbn in Hd.
      assert (Hr : loopback (e_addr e) = true).
      { unfold tcp_check in Ck. destruct (q_local q); [done|]. destruct (decide (q_persist q = OnDemand)); [done|]. destruct (multicast (e_addr e)); [done|]. rewrite Eq in Ck. by destruct (loopback (e_addr e)). }
      cbn. rewrite (HL _ Hr), (HL _ (Hd Hr)). done.
    - destruct Po as (c & Hc & Hp & Hw). unfold accepted. rewrite Hc, Hp, Hw. destruct r as [[remote lo]|]; [|eauto]. apply Take. eauto.
    - destruct Po as (c & Hc & Hp & Hw). unfold new_peer. rewrite Hc, Hp, Hw. destruct r as [remote|]; [|eauto]. destruct (ch_faces c !! remote); [eauto|]. destruct os as [lo|]; [|eauto]. apply Take. eauto.
    - unfold update_face. destruct (if (p_face p =? 0)%N then tag else Some (p_face p)) as [id|]; [|cbn; eauto]. destruct (fm_faces (w_fm w) !! id) as [fc|]; [|cbn; eauto].
      destruct (bad_lf p fc || bad_persist p fc || bad_mtu p fc) eqn:Eb; [cbn; eauto|]. apply orb_false_iff in Eb as [Eb _]. apply orb_false_iff in Eb as [_ Eb]. unfold bad_persist in Eb.
      destruct (p_persist p) as [x|]; [|cbn; eauto]. apply negb_false_iff in Eb. unfold set_persistency. rewrite Eb. destruct (decide _); cbn; eauto.
    - eauto.
    - destruct Po as (fc & Hf & Hs). unfold transport_state, change_state. rewrite Hf. destruct (decide (mf_state fc = st)) as [_|ne]; [eauto|]. destruct Hs as [Hs|Hs]; [done|]. rewrite Hs. destruct st; eauto.
  Qed.

  (** ** Listening *)
  (** A channel that has stopped waiting for new connections or peers never does so again, and the settings of a channel stay. *)
  Theorem C75_deaf cs w l w' k c :
    w_reachable cs w -> w_run w l = Some w' -> w_chans w !! k = Some c ->
    exists c', w_chans w' !! k = Some c' /\ ch_proto c' = ch_proto c /\ ch_v6 c' = ch_v6 c /\ ch_mark c' = ch_mark c /\ ch_idle c' = ch_idle c /\ ch_mtu c' = ch_mtu c /\
      (ch_waiting c = false -> ch_waiting c' = false).
  Proof.
    intros R. destruct (reach_ind (fun _ => True) cs) with (w := w) as [_ T]; [done|done|exact R|]. clear R. revert w c T.
    induction l as [|e l IH]; intros w c T H Hc; [injection H as <-; exists c; done|]. cbn in H. destruct (w_step w e) as [w1|] eqn:E; [|done].
    destruct (shape_chans _ _ _ (step_shape _ _ _ T E) k c Hc) as (c1 & Hc1 & P1 & P2 & P3 & P4 & P5 & P6).
    destruct (IH w1 c1 (tries_step _ _ _ T E) H Hc1) as (c2 & Hc2 & Q1 & Q2 & Q3 & Q4 & Q5 & Q6). exists c2. split; [done|]. do 5 (split; [congruence|]). auto.
  Qed.
  (** It takes no new connection or peer any more. *)
  Theorem C75_deaf_peers w k c :
    w_chans w !! k = Some c -> ch_waiting c = false -> (forall r, w_step w (WAccepted k r) = None) /\ (forall now r os, w_step w (WPeer now k r os) = None).
  Proof. intros Hc Hw. cbn. unfold accepted, new_peer. rewrite Hc, Hw. by destruct (ch_proto c). Qed.
End channels.

(** ** A history *)
(** one TCP and one UDP channel for IPv4; URIs are written as scheme and endpoint in decimal *)
Definition ex_lo : endpoint := Endpoint (Addr false (127 * 2 ^ 24 + 1)) 6363.
Definition ex_far : endpoint := Endpoint (Addr false (192 * 2 ^ 24 + 7)) 6363.
Definition ex_here : endpoint := Endpoint (Addr false (192 * 2 ^ 24 + 1)) 40000.
Definition ex_parse (t : string) : option uri :=
  if decide (t = "tcp-lo") then Some (Uri "tcp4" t) else if decide (t = "tcp-far") then Some (Uri "tcp4" t) else if decide (t = "udp-far") then Some (Uri "udp4" t) else None.
Definition ex_canonical (u : uri) : bool := true.
Definition ex_endpoint (u : uri) : endpoint := if decide (u_text u = "tcp-lo") then ex_lo else ex_far.
Definition ex_uri (p : proto) (e : endpoint) : uri :=
  match p with
  | Tcp => Uri "tcp4" (if decide (e = ex_lo) then "tcp-lo" else if decide (e = ex_far) then "tcp-far" else "tcp-other")
  | Udp => Uri "udp4" (if decide (e = ex_far) then "udp-far" else "udp-other")
  end.
Definition ex_proto (t : string) : option proto := if decide (t = "tcp4") then Some Tcp else if decide (t = "udp4") then Some Udp else None.
Definition ex_chans : list chan := [Chan Tcp false false 0 0 true ∅; Chan Udp false false 600000000000 1400 true ∅].
Definition ex_create (t : string) (lf : option bool) : params := Params t None 0 None None None None lf None None.
Definition ex_run (is_local : addr -> bool) := w_run ex_parse ex_canonical ex_endpoint ex_uri ex_proto is_local.
Definition ex_codes (w : world) : list (N * N) := map (fun x => (fst x, match snd x with Response c _ => c end)) (w_answers w).
Definition ex_view (w : world) := (map_to_list (fmap (fun f => u_text (mf_remote f)) (fm_faces (w_fm w))), ex_codes w, map ch_waiting (w_chans w)).
(** a TCP face to a loopback address with local fields, a UDP face on command, one more command for it, an incoming connection *)
Definition ex_events : list w_event :=
  [WCommand 0 (ex_create "tcp-lo" (Some true)) None; WCommand 5 (ex_create "udp-far" None) (Some ex_here); WFinished 0 (Some ex_lo); WHandle 0; WCommand 6 (ex_create "udp-far" None) None;
   WAccepted 0 (Some (ex_far, ex_here)); WCommand 7 (ex_create "tcp-far" None) None; WDestroy (Params "" None 257 None None None None None None None)].
Example ex_channels :
  option_map ex_codes (ex_run loopback (w_new ex_chans) ex_events) = Some [(3, 409); (2, 409); (0, 200); (1, 200)]%N /\
  option_map (fun w => map (fun c => map_to_list (ch_faces c)) (w_chans w)) (ex_run loopback (w_new ex_chans) ex_events) = Some [[(ex_far, 258%N); (ex_lo, 257%N)]; [(ex_far, 256%N)]].
Proof. by vm_compute. Qed.
Example ex_prompt : prompt_run ex_parse ex_canonical ex_endpoint ex_uri ex_proto loopback (w_new ex_chans) ex_events.
Proof.
  assert (G : forall l w, Forall (fun e => match e with WTimeout _ => False | _ => True end) l -> prompt_run ex_parse ex_canonical ex_endpoint ex_uri ex_proto loopback w l).
  { intros l. induction l as [|e l IH]; intros w F; [done|]. inversion_clear F. cbn [prompt_run]. split; [by destruct e|]. destruct (w_step _ _ _ _ _ _ w e); [|done]. by apply IH. }
  apply G. unfold ex_events. repeat (apply Forall_cons; split; [exact I|]). by apply Forall_nil.
Qed.
Example ex_sane : sane_run ex_parse ex_canonical ex_endpoint ex_uri ex_proto loopback (w_new ex_chans) ex_events.
Proof.
  assert (G : forall l w, Forall (fun e => match e with WFinished _ (Some lo) => loopback (e_addr lo) = true | _ => True end) l -> sane_run ex_parse ex_canonical ex_endpoint ex_uri ex_proto loopback w l).
  { intros l. induction l as [|e l IH]; intros w F; [done|]. inversion_clear F. cbn [sane_run]. split; [destruct e as [|n [lo|]| | | | | | |]; try done; auto|]. destruct (w_step _ _ _ _ _ _ w e); [|done]. by apply IH. }
  apply G. unfold ex_events. repeat (apply Forall_cons; split; [first [exact I|reflexivity]|]). by apply Forall_nil.
Qed.
Example ex_env : (forall a, loopback a = true -> loopback a = true) /\ (forall u, ex_canonical u = true -> ex_proto (u_scheme u) = Some Tcp -> multicast (e_addr (ex_endpoint u)) = false).
Proof. split; [done|]. intros u _ _. unfold ex_endpoint. by destruct (decide _). Qed.
(** ** What does not hold *)
(** A command may be answered twice: the time to connect is over when the operating system has connected but the handler has not run.  The timeout handler answers 504 and closes the
    socket, then the connect handler, whose error code says success, cannot get its local endpoint and answers 500: tcp-channel.cpp:194-236, 105-113. *)
Theorem C75_twice_refuted :
  ~ (forall parse canonical endpoint_of uri_of proto_of is_local cs w n, w_reachable parse canonical endpoint_of uri_of proto_of is_local cs w -> answers_to n (w_answers w) <= 1).
Proof.
  intros H.
  set (o := ex_run loopback (w_new ex_chans) [WCommand 0 (ex_create "tcp-far" None) None; WFinished 0 (Some ex_here); WTimeout 0; WHandle 0]).
  assert (E : option_map (fun w => answers_to 0 (w_answers w)) o = Some 2) by by vm_compute. destruct o as [w|] eqn:Eo; [|done]. cbn in E. injection E as E.
  specialize (H ex_parse ex_canonical ex_endpoint ex_uri ex_proto loopback ex_chans w 0%N (ex_intro _ _ Eo)). lia.
Qed.
(** A create command may trip an assertion: the list of local addresses in the configuration need not have the loopback addresses, but local fields are accepted for them:
    tcp-factory.cpp:166-171, face-manager.cpp:220. *)
Theorem C75_local_refuted :
  ~ (forall parse canonical endpoint_of uri_of proto_of is_local cs l w e,
      (forall u, canonical u = true -> proto_of (u_scheme u) = Some Tcp -> multicast (e_addr (endpoint_of u)) = false) ->
      w_run parse canonical endpoint_of uri_of proto_of is_local (w_new cs) l = Some w -> sane_run parse canonical endpoint_of uri_of proto_of is_local (w_new cs) l ->
      (fm_last (w_fm w) < 2 ^ 64 - 1)%N -> possible w e -> is_Some (w_step parse canonical endpoint_of uri_of proto_of is_local w e)).
Proof.
  intros H. set (l := [WCommand 0 (ex_create "tcp-lo" (Some true)) None; WFinished 0 (Some ex_lo)]). set (none := fun _ : addr => false).
  assert (E : option_map (fun w => (fm_last (w_fm w), match w_tries w !! 0%N with Some a => match at_progress a with Connected _ => true | _ => false end | None => false end,
                match w_step ex_parse ex_canonical ex_endpoint ex_uri ex_proto none w (WHandle 0) with Some _ => true | None => false end)) (ex_run none (w_new ex_chans) l) = Some (255%N, true, false)) by by vm_compute.
  destruct (ex_run none (w_new ex_chans) l) as [w|] eqn:Eo; [|done]. cbn in E. injection E as E1 E2 E3.
  destruct (H ex_parse ex_canonical ex_endpoint ex_uri ex_proto none ex_chans l w (WHandle 0) (proj2 ex_env) Eo) as [w' Hw].
  - unfold l. cbn [sane_run]. split; [done|]. destruct (w_step _ _ _ _ _ _ (w_new ex_chans) _) as [w1|]; [|done]. split; [intros a _ _; by vm_compute|]. by destruct (w_step _ _ _ _ _ _ w1 _).
  - rewrite E1. done.
  - cbn. destruct (w_tries w !! 0%N) as [a|]; [|done]. exists a. split; [done|]. by destruct (at_progress a).
  - cbn in Hw, E3. by rewrite Hw in E3.
Qed.
(** A channel does not go on taking peers: when one datagram cannot be received, or one socket cannot be made for a new peer, as when there are too many open files, it stops for ever;
    likewise a TCP channel after one failure to accept: udp-channel.cpp:98-140, tcp-channel.cpp:157-192. *)
Theorem C75_listen_refuted :
  ~ (forall parse canonical endpoint_of uri_of proto_of is_local cs w k c, (forall c, c ∈ cs -> ch_waiting c = true) ->
      w_reachable parse canonical endpoint_of uri_of proto_of is_local cs w -> w_chans w !! k = Some c -> ch_waiting c = true).
Proof.
  intros H. set (o := ex_run loopback (w_new ex_chans) [WPeer 0 1 (Some ex_far) None; WAccepted 0 None]).
  assert (E : option_map (fun w => map ch_waiting (w_chans w)) o = Some [false; false]) by by vm_compute. destruct o as [w|] eqn:Eo; [|done]. cbn in E. injection E as E.
  destruct (w_chans w) as [|c cs] eqn:Ec; [done|]. injection E as E _.
  assert (ch_waiting c = true); [|congruence]. eapply (H ex_parse ex_canonical ex_endpoint ex_uri ex_proto loopback ex_chans w 0 c); [|by eexists|by rewrite Ec].
  intros d Hd. unfold ex_chans in Hd. set_solver.
Qed.
(** A face whose destruction was answered with 200 may still be reported: a create command for its URI is refused with 409 and that face, until the transport is closed. *)
Theorem C75_destroyed_refuted :
  ~ (forall parse canonical endpoint_of uri_of proto_of is_local cs w p now p' os w1 w2 r l b, w_reachable parse canonical endpoint_of uri_of proto_of is_local cs w ->
      w_step parse canonical endpoint_of uri_of proto_of is_local w (WDestroy p) = Some w1 -> w_step parse canonical endpoint_of uri_of proto_of is_local w1 (WCommand now p' os) = Some w2 ->
      w_answers w2 = (w_next w, Response r (Some b)) :: l -> b_face b <> Some (p_face p)).
Proof.
  intros H. set (d := Params "" None 256 None None None None None None None).
  set (o := ex_run loopback (w_new ex_chans) [WCommand 5 (ex_create "udp-far" None) (Some ex_here)]).
  set (st := w_step ex_parse ex_canonical ex_endpoint ex_uri ex_proto loopback).
  assert (E : match o with
              | Some w => match st w (WDestroy d) with
                          | Some w1 => match st w1 (WCommand 6 (ex_create "udp-far" None) None) with
                                       | Some w2 => match w_answers w2 with (n, Response r (Some b)) :: _ => Some (n, w_next w, b_face b) | _ => None end
                                       | None => None end | None => None end | None => None end = Some (1%N, 1%N, Some 256%N)) by by vm_compute.
  destruct o as [w|] eqn:Eo; [|done]. destruct (st w (WDestroy d)) as [w1|] eqn:E1; [|done]. destruct (st w1 _) as [w2|] eqn:E2; [|done].
  destruct (w_answers w2) as [|[n [r [b|]]] l] eqn:Ea; [done| |done]. injection E as -> En Eb.
  apply (H ex_parse ex_canonical ex_endpoint ex_uri ex_proto loopback ex_chans w d 6%Z (ex_create "udp-far" None) None w1 w2 r l b); [by eexists|exact E1|exact E2|by rewrite En|exact Eb].
Qed.

Print Assumptions C75_tcp_refused.
Print Assumptions C75_udp_refused.
Print Assumptions C75_addresses.
Print Assumptions C75_tcp_command.
Print Assumptions C75_udp_command.
Print Assumptions C75_connected.
Print Assumptions C75_peer.
Print Assumptions C75_accepted.
Print Assumptions C75_timeout.
Print Assumptions C75_manager.
Print Assumptions C75_one.
Print Assumptions C75_one_uri.
Print Assumptions C75_answered.
Print Assumptions C75_once_partial.
Print Assumptions C75_local.
Print Assumptions C75_defined.
Print Assumptions C75_deaf.
Print Assumptions C75_deaf_peers.
Print Assumptions C75_twice_refuted.
Print Assumptions C75_local_refuted.
Print Assumptions C75_listen_refuted.
Print Assumptions C75_destroyed_refuted.
