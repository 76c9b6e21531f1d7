(** C74: commands, datasets and notifications of the face manager. *)
From Coq Require Import String.
From stdpp Require Import gmap strings.
From Verif Require Import Lib Fm_Model Fm_Spec.
Open Scope string_scope.
Open Scope list_scope.

(** ** What the answers say *)
Lemma shown_ok fc : sized fc -> exists m, shown_mtu fc = Some m /\ mtu_is fc (Z.of_N m).
Proof.
  intros (Ht & Ho). unfold shown_mtu, effective_mtu, mtu_is, MTU_UNLIMITED, MAX_PACKET. destruct (mf_svc fc) as [o|].
  - specialize (Ho o eq_refl).
    destruct (Z.leb_spec 0 (Z.min (o_mtu o) (mf_tmtu fc))).
    + eexists. split; [reflexivity|]. rewrite Z2N.id by lia. split; [lia|]. split; [lia|]. split; [intros ? [= <-]; lia|].
      destruct (Z.eq_dec (Z.min (Z.min (o_mtu o) (mf_tmtu fc)) 8800) 8800); [by left|]. right.
      destruct (Z.eq_dec (Z.min (Z.min (o_mtu o) (mf_tmtu fc)) 8800) (mf_tmtu fc)); [by left|]. right. exists o. split; [done|]. lia.
    + destruct (Z.eqb_spec (Z.min (o_mtu o) (mf_tmtu fc)) (-1)); [|lia].
      eexists. split; [reflexivity|]. rewrite Z2N.id by lia. split; [lia|]. split; [lia|]. split; [intros ? [= <-]; lia|]. by left.
  - destruct (Z.leb_spec 0 (mf_tmtu fc)).
    + eexists. split; [reflexivity|]. rewrite Z2N.id by lia. split; [lia|]. split; [lia|]. split; [done|]. lia.
    + destruct (Z.eqb_spec (mf_tmtu fc) (-1)); [|lia].
      eexists. split; [reflexivity|]. rewrite Z2N.id by lia. split; [lia|]. split; [lia|]. split; [done|]. by left.
Qed.
Lemma update_describes id fc : describes false (update_body id fc) id fc.
Proof.
  unfold describes, update_body. cbn. split; [done|]. split; [done|]. split; [done|]. split; [done|]. split; [apply shown_ok|].
  by destruct (mf_svc fc) as [o|].
Qed.
Lemma create_describes id fc : describes true (create_body id fc) id fc.
Proof.
  unfold describes, create_body, update_body. cbn. split; [done|]. split; [done|]. split; [done|]. split; [done|]. split; [apply shown_ok|].
  by destruct (mf_svc fc) as [o|].
Qed.
Lemma properties_tells id fc : tells (properties_of id fc) id fc.
Proof. unfold tells, properties_of. cbn. do 6 (split; [done|]). by destruct (mf_svc fc). Qed.

(** ** Create *)
Section create.
  Variable parse : string -> option uri.
  Variable canonical : uri -> bool.
  Variable supported : string -> bool.
  Definition good_uri (t : string) (u : uri) : Prop := parse t = Some u /\ canonical u = true.
  Definition bad_uri (t : string) : Prop := forall u, ~ good_uri t u.
  (** A create command is answered at once with 400 if and only if its URI, or the local URI if there is one, does not parse or is not
      canonical, and with 406 if and only if it is well-formed and no protocol has that scheme; these answers have no body. *)
  Theorem C74_create_codes p c b :
    create_request parse canonical supported p = inl (Response c b) <->
    b = None /\
    (c = 400%N /\ (bad_uri (p_uri p) \/ exists t, p_local_uri p = Some t /\ bad_uri t) \/
     c = 406%N /\ (exists u, good_uri (p_uri p) u /\ supported (u_scheme u) = false) /\ (forall t, p_local_uri p = Some t -> exists u, good_uri t u)).
  Proof.
    unfold create_request, bad_uri, good_uri.
    destruct (parse (p_uri p)) as [u|] eqn:Eu.
    2: { split.
         - intros [= <- <-]. split; [done|]. left. split; [done|]. left. intros u' [[=] ?].
         - intros (-> & [(-> & _)|(-> & (u & ([=] & _) & _) & _)]). done. }
    destruct (canonical u) eqn:Ec; cbn [negb].
    2: { split.
         - intros [= <- <-]. split; [done|]. left. split; [done|]. left. intros u' [[= <-] ?]. congruence.
         - intros (-> & [(-> & _)|(-> & (u' & ([= <-] & ?) & _) & _)]); [done|congruence]. }
    destruct (p_local_uri p) as [t|] eqn:El.
    - destruct (parse t) as [v|] eqn:Ev.
      2: { split.
           - intros [= <- <-]. split; [done|]. left. split; [done|]. right. exists t. split; [done|]. intros v [? _]. congruence.
           - intros (-> & [(-> & _)|(-> & _ & H)]); [done|]. destruct (H t eq_refl) as (v & ? & _). congruence. }
      destruct (canonical v) eqn:Ecv.
      2: { split.
           - intros [= <- <-]. split; [done|]. left. split; [done|]. right. exists t. split; [done|]. intros v' [? ?]. congruence.
           - intros (-> & [(-> & _)|(-> & _ & H)]); [done|]. destruct (H t eq_refl) as (v' & ? & ?). congruence. }
      destruct (supported (u_scheme u)) eqn:Es; cbn [negb].
      + split; [done|]. intros (-> & [(-> & [H|(t' & [= <-] & H)])|(-> & (u' & ([= <-] & _) & ?) & _)]).
        * by destruct (H u).
        * by destruct (H v).
        * congruence.
      + split.
        * intros [= <- <-]. split; [done|]. right. split; [done|]. split; [by exists u|]. intros t' [= <-]. by exists v.
        * intros (-> & [(-> & [H|(t' & [= <-] & H)])|(-> & _)]); [by destruct (H u)|by destruct (H v)|done].
    - destruct (supported (u_scheme u)) eqn:Es; cbn [negb].
      + split; [done|]. intros (-> & [(-> & [H|(t' & [=] & H)])|(-> & (u' & ([= <-] & _) & ?) & _)]); [by destruct (H u)|congruence].
      + split.
        * intros [= <- <-]. split; [done|]. right. split; [done|]. split; [by exists u|]. done.
        * intros (-> & [(-> & [H|(t' & [=] & H)])|(-> & _)]); [by destruct (H u)|done].
  Qed.
  (** Otherwise the factory is asked for exactly what the command says: the URIs, the persistency (persistent if none is given), the
      congestion parameters and the flags, and the MTU up to the greatest signed 64-bit number. *)
  Theorem C74_create_request p q :
    create_request parse canonical supported p = inr q ->
    good_uri (p_uri p) (q_remote q) /\ supported (u_scheme (q_remote q)) = true /\
    match p_local_uri p with None => q_local q = None | Some t => exists u, q_local q = Some u /\ good_uri t u end /\
    (forall x, p_persist p = Some x -> q_persist q = x) /\ (p_persist p = None -> q_persist q = Persistent) /\
    q_interval q = p_interval p /\ q_threshold q = p_threshold p /\
    match p_mtu p with
    | None => q_mtu q = None
    | Some m => exists z, q_mtu q = Some z /\ ((Z.of_N m < 2 ^ 63)%Z -> z = Z.of_N m) /\ ((2 ^ 63 <= Z.of_N m)%Z -> z = (2 ^ 63 - 1)%Z)
    end /\
    (q_lf q = true <-> p_lf p = Some true) /\ (q_rel q = true <-> p_rel p = Some true) /\ q_mark q = p_mark p.
  Proof.
    unfold create_request, good_uri.
    destruct (parse (p_uri p)) as [u|] eqn:Eu; [|done]. destruct (canonical u) eqn:Ec; cbn [negb]; [|done].
    assert (F : forall l, q = Request u l (default Persistent (p_persist p)) (p_interval p) (p_threshold p) (clamp_mtu <$> p_mtu p)
                                (is_true (p_lf p)) (is_true (p_rel p)) (p_mark p) ->
            (forall x, p_persist p = Some x -> q_persist q = x) /\ (p_persist p = None -> q_persist q = Persistent) /\
            q_interval q = p_interval p /\ q_threshold q = p_threshold p /\
            match p_mtu p with
            | None => q_mtu q = None
            | Some m => exists z, q_mtu q = Some z /\ ((Z.of_N m < 2 ^ 63)%Z -> z = Z.of_N m) /\ ((2 ^ 63 <= Z.of_N m)%Z -> z = (2 ^ 63 - 1)%Z)
            end /\
            (q_lf q = true <-> p_lf p = Some true) /\ (q_rel q = true <-> p_rel p = Some true) /\ q_mark q = p_mark p).
    { intros l ->. cbn. split; [by intros x ->|]. split; [by intros ->|]. split; [done|]. split; [done|]. split.
      { destruct (p_mtu p) as [m|]; [|done]. eexists. split; [reflexivity|]. unfold clamp_mtu, SSIZE_MAX. lia. }
      split; [destruct (p_lf p) as [[]|]; naive_solver|]. split; [destruct (p_rel p) as [[]|]; naive_solver|done]. }
    destruct (p_local_uri p) as [t|] eqn:El.
    - destruct (parse t) as [v|] eqn:Ev; [|done]. destruct (canonical v) eqn:Ecv; [|done].
      destruct (supported (u_scheme u)) eqn:Es; cbn [negb]; [|done].
      intros [= <-]. split; [done|]. split; [done|]. split; [by exists v|]. exact (F _ eq_refl).
    - destruct (supported (u_scheme u)) eqn:Es; cbn [negb]; [|done].
      intros [= <-]. split; [done|]. split; [done|]. split; [done|]. exact (F _ eq_refl).
  Qed.
End create.

(** When the factory hands over a face that is in the table, the answer is 409 with what that face is, and nothing changes.  When it hands over a
    new face, the answer is 200 with what the face is; the face has got an identifier that no face has, greater than all before, and above 255;
    that it was created is notified, and no other face changes. *)
Theorem C74_create p m s s' c b :
  create_done p m s = Some (s', Response c b) ->
  exists bd, b = Some bd /\
  match m with
  | MadeOld id => c = 409%N /\ s' = s /\ exists fc, fm_faces s !! id = Some fc /\ describes true bd id fc
  | MadeNew fc =>
      c = 200%N /\
      exists id r, fm_faces s !! id = None /\ (255 < id)%N /\ fm_last s' = id /\ ((fm_last s < 2 ^ 64)%N -> (fm_last s < id)%N) /\
        fm_faces s' !! id = Some fc /\ (forall j, j <> id -> fm_faces s' !! j = fm_faces s !! j) /\
        fm_notes s' = (ECreated, r) :: fm_notes s /\ tells r id fc /\ describes true bd id fc
  end.
Proof.
  unfold create_done. destruct m as [fc|id].
  - destruct (mf_is_local fc || negb (is_true (p_lf p))); [|done].
    unfold add_face. destruct (N.leb_spec ((fm_last s + 1) mod 2 ^ 64) 255); [done|].
    destruct (fm_faces s !! _) eqn:E; [done|]. intros [= <- <- <-]. eexists. split; [done|]. split; [done|].
    exists ((fm_last s + 1) mod 2 ^ 64)%N. eexists. split; [done|]. split; [lia|]. split; [done|]. split.
    { intros Hl. destruct (N.eq_dec (fm_last s + 1) (2 ^ 64)) as [e|ne]; [rewrite e, N.mod_same in H by lia; lia|]. rewrite N.mod_small; lia. }
    cbn -[N.modulo N.pow]. split; [by rewrite lookup_insert|]. split; [intros j Hj; by rewrite lookup_insert_ne|]. split; [done|]. split; [apply properties_tells|apply create_describes].
  - destruct (fm_faces s !! id) as [fc|] eqn:E; [|done]. intros [= <- <- <-]. eexists. split; [done|]. split; [done|]. split; [done|].
    exists fc. split; [done|]. apply create_describes.
Qed.
(** The answer does come, if the identifiers have not run out and a face for which local fields were wanted is a local one. *)
Theorem C74_create_answered p m s :
  (255 <= fm_last s)%N -> (fm_last s + 1 < 2 ^ 64)%N -> (forall id, is_Some (fm_faces s !! id) -> (id <= fm_last s)%N) ->
  match m with MadeNew fc => p_lf p = Some true -> mf_is_local fc = true | MadeOld id => is_Some (fm_faces s !! id) end ->
  is_Some (create_done p m s).
Proof.
  intros H255 Hl Hid Hm. unfold create_done. destruct m as [fc|id].
  - assert (mf_is_local fc || negb (is_true (p_lf p)) = true) as ->.
    { destruct (p_lf p) as [[]|]; cbn; rewrite ?orb_true_r; [|done|done]. by rewrite (Hm eq_refl). }
    unfold add_face. rewrite N.mod_small by lia. destruct (N.leb_spec (fm_last s + 1) 255); [lia|].
    destruct (fm_faces s !! (fm_last s + 1)%N) eqn:E; [|done].
    assert (fm_last s + 1 <= fm_last s)%N by (apply Hid; rewrite E; eauto). lia.
  - by destruct Hm as [fc ->].
Qed.

(** ** Update *)
(** the face that an update is about *)
Definition target (tag : option N) (p : params) (id : N) : Prop := (p_face p <> 0 /\ id = p_face p)%N \/ (p_face p = 0%N /\ tag = Some id).
(** what is wrong with a request: local fields on a face that is not local; a change of persistency on a transport that is not TCP, unicast
    UDP or unicast Ethernet; an MTU below 64, or on a transport without limit, or on a link service that is not the generic one *)
Definition wrong_lf (p : params) (fc : mface) : Prop := p_lf p = Some true /\ mf_is_local fc = false.
Definition wrong_persist (p : params) (fc : mface) : Prop := exists x, p_persist p = Some x /\ x <> mf_persist fc /\ mf_kind fc = KOther.
Definition wrong_mtu (p : params) (fc : mface) : Prop := exists m, p_mtu p = Some m /\ (mf_svc fc = None \/ mf_tmtu fc = (-1)%Z \/ (m < 64)%N).
Lemma bad_lf_spec p fc : bad_lf p fc = true <-> wrong_lf p fc.
Proof. unfold bad_lf, wrong_lf. destruct (p_lf p) as [[]|], (mf_is_local fc); cbn; naive_solver. Qed.
Lemma bad_persist_spec p fc : bad_persist p fc = true <-> wrong_persist p fc.
Proof.
  unfold bad_persist, wrong_persist, can_change. destruct (p_persist p) as [x|]; [|naive_solver].
  destruct (decide (mf_persist fc = x)) as [e|ne]; [split; [done|]; intros (y & [= <-] & Hy & _); congruence|].
  destruct (mf_kind fc); cbn; (split; [|by intros (? & [= <-] & _ & [=])]); try done. intros _. exists x. done.
Qed.
Lemma bad_mtu_spec p fc : bad_mtu p fc = true <-> wrong_mtu p fc.
Proof.
  unfold bad_mtu, wrong_mtu, can_override, clamp_mtu, MTU_UNLIMITED, MIN_MTU, SSIZE_MAX. destruct (p_mtu p) as [m|]; [|naive_solver].
  destruct (mf_svc fc) as [o|]; cbn; [|split; [|done]; intros _; exists m; split; [done|by left]].
  destruct (Z.eqb_spec (mf_tmtu fc) (-1)); cbn; [split; [|done]; intros _; exists m; split; [done|right; by left]|].
  destruct (Z.leb_spec 64 (Z.min (2 ^ 63 - 1) (Z.of_N m))); cbn.
  - split; [done|]. intros (m' & [= <-] & [?|[?|?]]); [done|done|lia].
  - split; [|done]. intros _. exists m. split; [done|]. do 2 right. lia.
Qed.
Lemma target_spec tag p : forall id, (if (p_face p =? 0)%N then tag else Some (p_face p)) = Some id <-> target tag p id.
Proof. intros id. unfold target. destruct (N.eqb_spec (p_face p) 0); naive_solver. Qed.

(** the face after an update: what the request gives is as given, all else is as it was *)
Definition updated (now : Z) (p : params) (fc fc' : mface) : Prop :=
  mf_remote fc' = mf_remote fc /\ mf_local fc' = mf_local fc /\ mf_is_local fc' = mf_is_local fc /\ mf_link fc' = mf_link fc /\ mf_kind fc' = mf_kind fc /\ mf_tmtu fc' = mf_tmtu fc /\ mf_counters fc' = mf_counters fc /\
  mf_persist fc' = default (mf_persist fc) (p_persist p) /\
  match mf_svc fc with
  | None => mf_svc fc' = None
  | Some o => exists o', mf_svc fc' = Some o' /\
      o_local o' = default (o_local o) (if mf_is_local fc then p_lf p else None) /\ o_reliable o' = default (o_reliable o) (p_rel p) /\ o_mark o' = default (o_mark o) (p_mark p) /\
      o_interval o' = default (o_interval o) (p_interval p) /\ o_threshold o' = default (o_threshold o) (p_threshold p) /\
      (p_mtu p = None -> o_mtu o' = o_mtu o) /\ (forall m, p_mtu p = Some m -> o_mtu o' = Z.min (2 ^ 63 - 1) (Z.of_N m))
  end /\
  (* a TCP face that is down because it was permanent does not survive ceasing to be permanent *)
  (mf_kind fc = KTcp /\ mf_persist fc = Permanent /\ mf_persist fc' <> Permanent /\ mf_state fc = Down -> mf_state fc' = Failed) /\
  (~ (mf_kind fc = KTcp /\ mf_persist fc = Permanent /\ mf_persist fc' <> Permanent /\ mf_state fc = Down) -> mf_state fc' = mf_state fc) /\
  (* a datagram face that becomes on-demand expires after the idle period, one that ceases to be on-demand does not expire *)
  (forall idle, mf_kind fc = KUnicast idle -> mf_persist fc' <> mf_persist fc -> mf_persist fc' = OnDemand -> (0 < idle)%Z -> mf_expires fc' = Some (now + idle)%Z) /\
  (forall idle, mf_kind fc = KUnicast idle -> mf_persist fc' <> mf_persist fc -> mf_persist fc' <> OnDemand \/ (idle <= 0)%Z -> mf_expires fc' = None) /\
  (mf_persist fc' = mf_persist fc \/ (forall idle, mf_kind fc <> KUnicast idle) -> mf_expires fc' = mf_expires fc).

Local Ltac tails :=
  split; [intros (? & ? & ? & ?); congruence|];
  split; [intros Hn; first [reflexivity|congruence|exfalso; apply Hn; split; [congruence|]; split; [congruence|]; split; congruence]|];
  split; [intros i E1 E2 E3 E4; first [congruence|injection E1 as <-; lia]|];
  split; [intros i E1 E2 [E3|E3]; first [congruence|injection E1 as <-; lia]|];
  intros [E5|E5]; first [reflexivity|congruence|exfalso; by eapply E5].
(** An update is always answered: with 404 if it names no face and does not come with a face, or the face is not in the table; with 409 if
    something is wrong, and then the answer tells exactly what is, and nothing changes; and with 200 otherwise, and then the face has the requested
    properties, all other properties and all other faces are as before, and the answer describes the face. *)
Theorem C74_update now tag p s :
  exists s' c b, update_face now tag p s = Some (s', Response c b) /\
    (c = 404 /\ b = None /\ s' = s /\ (forall id fc, target tag p id -> fm_faces s !! id <> Some fc) \/
     c = 409 /\ s' = s /\ (exists id fc bd, target tag p id /\ fm_faces s !! id = Some fc /\ (wrong_lf p fc \/ wrong_persist p fc \/ wrong_mtu p fc) /\
        b = Some bd /\ b_face bd = None /\ b_uri bd = None /\ b_local_uri bd = None /\ b_interval bd = None /\ b_threshold bd = None /\ b_rel bd = None /\ b_mark bd = None /\
        (wrong_lf p fc -> b_lf bd = Some true) /\ (~ wrong_lf p fc -> b_lf bd = None) /\
        (wrong_persist p fc -> b_persist bd = p_persist p) /\ (~ wrong_persist p fc -> b_persist bd = None) /\
        (wrong_mtu p fc -> b_mtu bd = p_mtu p) /\ (~ wrong_mtu p fc -> b_mtu bd = None)) \/
     c = 200 /\ (exists id fc fc' bd, target tag p id /\ fm_faces s !! id = Some fc /\ ~ wrong_lf p fc /\ ~ wrong_persist p fc /\ ~ wrong_mtu p fc /\
        b = Some bd /\ describes false bd id fc' /\ updated now p fc fc' /\
        s' = Fm (<[id := fc']> (fm_faces s)) (fm_last s) (fm_notes s)))%N.
Proof.
  unfold update_face. pose proof (target_spec tag p) as HT. destruct (if (p_face p =? 0)%N then tag else Some (p_face p)) as [id|].
  2: { eexists s, _, _. split; [done|]. left. do 3 (split; [done|]). intros id fc Ht%HT. done. }
  assert (Ht : target tag p id) by (by apply HT).
  destruct (fm_faces s !! id) as [fc|] eqn:E.
  2: { eexists s, _, _. split; [done|]. left. do 3 (split; [done|]). intros id' fc' Ht'%HT. congruence. }
  destruct (bad_lf p fc || bad_persist p fc || bad_mtu p fc) eqn:B.
  { eexists s, _, _. split; [done|]. right. left. split; [done|]. split; [done|]. exists id, fc. eexists. split; [done|]. split; [done|].
    pose proof (bad_lf_spec p fc) as S1. pose proof (bad_persist_spec p fc) as S2. pose proof (bad_mtu_spec p fc) as S3.
    split. { apply orb_true_iff in B as [[B|B]%orb_true_iff|B]; [left; by apply S1|right; left; by apply S2|do 2 right; by apply S3]. }
    split; [done|]. cbn. do 7 (split; [done|]).
    destruct (bad_lf p fc) eqn:B1.
    - assert (W : wrong_lf p fc) by (by apply S1). split; [intros _; by destruct W as [W _]|]. split; [done|].
      destruct (bad_persist p fc), (bad_mtu p fc); naive_solver.
    - assert (W : ~ wrong_lf p fc) by (by intros W%S1). split; [done|]. split; [done|].
      destruct (bad_persist p fc), (bad_mtu p fc); naive_solver. }
  apply orb_false_iff in B as [[B1 B2]%orb_false_iff B3].
  assert (W1 : ~ wrong_lf p fc) by (rewrite <- bad_lf_spec; congruence). assert (W2 : ~ wrong_persist p fc) by (rewrite <- bad_persist_spec; congruence).
  assert (W3 : ~ wrong_mtu p fc) by (rewrite <- bad_mtu_spec; congruence).
  assert (P : exists fc1, match p_persist p with Some x => set_persistency now x fc | None => Some fc end = Some fc1 /\
    updated now p fc (set_svc (update_options p (mf_is_local fc1) <$> mf_svc fc1) fc1)).
  { assert (O : match mf_svc fc with
      | None => update_options p (mf_is_local fc) <$> mf_svc fc = None
      | Some o => exists o', update_options p (mf_is_local fc) <$> mf_svc fc = Some o' /\
          o_local o' = default (o_local o) (if mf_is_local fc then p_lf p else None) /\ o_reliable o' = default (o_reliable o) (p_rel p) /\ o_mark o' = default (o_mark o) (p_mark p) /\
          o_interval o' = default (o_interval o) (p_interval p) /\ o_threshold o' = default (o_threshold o) (p_threshold p) /\
          (p_mtu p = None -> o_mtu o' = o_mtu o) /\ (forall m, p_mtu p = Some m -> o_mtu o' = Z.min (2 ^ 63 - 1) (Z.of_N m))
      end).
    { destruct (mf_svc fc) as [o|]; [|done]. eexists. split; [reflexivity|]. cbn.
      split; [by destruct (p_lf p), (mf_is_local fc)|]. do 4 (split; [done|]). split; [by intros ->|]. by intros m ->. }
    destruct (p_persist p) as [x|] eqn:Ep.
    2: { exists fc. split; [done|]. unfold updated. rewrite Ep. cbn. do 8 (split; [done|]). split; [exact O|]. tails. }
    unfold set_persistency. unfold bad_persist in B2. rewrite Ep in B2. apply negb_false_iff in B2 as B2'. rewrite B2'.
    destruct (decide (mf_persist fc = x)) as [<-|ne].
    { exists fc. split; [done|]. unfold updated. rewrite Ep. cbn. do 8 (split; [done|]). split; [exact O|]. tails. }
    eexists. split; [reflexivity|]. unfold updated, after_change. rewrite Ep.
    destruct (mf_kind fc) as [|idle|] eqn:Ek; cbn [mf_kind set_persist].
    - rewrite Ek. destruct (decide (mf_persist fc = Permanent)) as [e|n].
      + cbn [mf_state set_persist]. destruct (decide (mf_state fc = Down)); cbn; do 8 (split; [done|]); (split; [exact O|]); tails.
      + cbn. do 8 (split; [done|]). split; [exact O|]. tails.
    - rewrite Ek. cbn [mf_persist set_persist].
      destruct (decide (x = OnDemand)) as [->|n1].
      + destruct (Z.ltb_spec 0 idle); cbn; do 8 (split; [done|]); (split; [exact O|]); tails.
      + cbn. do 8 (split; [done|]). split; [exact O|]. tails.
    - exfalso. apply W2. exists x. done. }
  destruct P as (fc1 & -> & U). eexists _, _, _. split; [reflexivity|]. right. right. split; [done|].
  exists id, fc. eexists. eexists. do 5 (split; [done|]). split; [reflexivity|]. split; [apply update_describes|]. split; [exact U|done].
Qed.

(** ** Destroy *)
(** A destroy command is always answered with 200 and the identifier it names.  If that face is in the table and up or down, it is closing afterwards;
    nothing else changes. *)
Theorem C74_destroy p s :
  exists s' b, destroy_face p s = (s', Response 200 (Some b)) /\
    b = Body (Some (p_face p)) None None None None None None None None None /\
    fm_last s' = fm_last s /\ fm_notes s' = fm_notes s /\ (forall j, j <> p_face p -> fm_faces s' !! j = fm_faces s !! j) /\
    match fm_faces s !! p_face p with
    | None => fm_faces s' !! p_face p = None
    | Some fc => exists fc', fm_faces s' !! p_face p = Some fc' /\
        ((mf_state fc = Up \/ mf_state fc = Down) -> mf_state fc' = Closing) /\ (mf_state fc <> Up -> mf_state fc <> Down -> mf_state fc' = mf_state fc) /\
        mf_remote fc' = mf_remote fc /\ mf_local fc' = mf_local fc /\ mf_is_local fc' = mf_is_local fc /\ mf_link fc' = mf_link fc /\ mf_kind fc' = mf_kind fc /\ mf_tmtu fc' = mf_tmtu fc /\
        mf_svc fc' = mf_svc fc /\ mf_persist fc' = mf_persist fc /\ mf_expires fc' = mf_expires fc /\ mf_counters fc' = mf_counters fc
    end.
Proof.
  unfold destroy_face. eexists _, _. split; [reflexivity|]. split; [done|]. destruct (fm_faces s !! p_face p) as [fc|] eqn:E.
  - cbn. split; [done|]. split; [done|]. split; [intros j Hj; by rewrite lookup_insert_ne|]. rewrite lookup_insert. eexists. split; [reflexivity|].
    unfold close. destruct (mf_state fc) eqn:Es; cbn; naive_solver.
  - naive_solver.
Qed.

(** ** Changes of state *)
(** A transport can go up and down, from either begin to close or fail, and from there be closed.  Going up or down is notified; on being closed, the face is
    notified as destroyed and leaves the table.  Nothing else about it or other faces changes. *)
Theorem C74_state id st s s' :
  change_state id st s = Some s' <->
  exists fc, fm_faces s !! id = Some fc /\
    (mf_state fc = st /\ s' = s \/
     exists fc', mf_state fc' = st /\ fc' = set_state st fc /\
       match mf_state fc, st with
       | Down, Up => exists r, tells r id fc /\ s' = Fm (<[id := fc']> (fm_faces s)) (fm_last s) ((EUp, r) :: fm_notes s)
       | Up, Down => exists r, tells r id fc /\ s' = Fm (<[id := fc']> (fm_faces s)) (fm_last s) ((EDown, r) :: fm_notes s)
       | (Up | Down), (Closing | Failed) => s' = Fm (<[id := fc']> (fm_faces s)) (fm_last s) (fm_notes s)
       | (Closing | Failed), Closed => exists r, tells r id fc /\ s' = Fm (delete id (fm_faces s)) (fm_last s) ((EDestroyed, r) :: fm_notes s)
       | _, _ => False
       end).
Proof.
  assert (R : forall r fc, tells r id fc -> r = properties_of id fc).
  { intros [] fc. unfold tells, properties_of. cbn. intros (-> & -> & -> & -> & -> & -> & H). f_equal. by destruct (mf_svc fc). }
  unfold change_state. destruct (fm_faces s !! id) as [fc|] eqn:E; [|naive_solver].
  destruct (decide (mf_state fc = st)) as [e|ne].
  { split.
    - intros [= <-]. exists fc. split; [done|]. by left.
    - intros (fc' & [= <-] & [(_ & ->)|(fc'' & _ & _ & H)]); [done|]. rewrite e in H. by destruct st. }
  split.
  - intros H. exists fc. split; [done|]. right. exists (set_state st fc). split; [done|]. split; [done|].
    destruct (mf_state fc) eqn:Es, st; cbn in H; try done; injection H as <-; try done; (eexists; split; [|reflexivity]); apply (properties_tells id fc).
  - intros (fc' & [= <-] & [(? & _)|(fc'' & _ & -> & H)]); [done|].
    destruct (mf_state fc) eqn:Es, st; cbn; try done; try (by subst s'); destruct H as (r & ->%R & ->); done.
Qed.

(** When the connection of a TCP face that is down is established again, the face is up with its new local URI, and the notification has that URI; a face that is closing is left alone.
    When the MTU of a network interface changes, the MTU of the transports on it does, and nothing else. *)
Theorem C74_reconnect id u fc s :
  fm_faces s !! id = Some fc -> mf_kind fc = KTcp ->
  (mf_state fc = Down -> exists fc' r, reconnected id u s = Some (Fm (<[id := fc']> (fm_faces s)) (fm_last s) ((EUp, r) :: fm_notes s)) /\ tells r id fc' /\
     mf_local fc' = u /\ mf_state fc' = Up /\ mf_remote fc' = mf_remote fc /\ mf_is_local fc' = mf_is_local fc /\ mf_link fc' = mf_link fc /\ mf_kind fc' = mf_kind fc /\ mf_tmtu fc' = mf_tmtu fc /\
     mf_svc fc' = mf_svc fc /\ mf_persist fc' = mf_persist fc /\ mf_expires fc' = mf_expires fc /\ mf_counters fc' = mf_counters fc) /\
  (mf_state fc = Closing \/ mf_state fc = Failed -> reconnected id u s = Some s).
Proof.
  intros A Ek. unfold reconnected. rewrite A, Ek. split; [intros E|intros [E|E]; by rewrite E].
  rewrite E. unfold change_state. cbn [put_face fm_faces]. rewrite lookup_insert. cbn [mf_state set_local]. rewrite E. rewrite decide_False by done. cbn [may_become]. unfold notify, put_face. cbn [fm_faces fm_last fm_notes]. rewrite insert_insert.
  eexists _, _. split; [reflexivity|]. split; [apply (properties_tells id)|]. done.
Qed.
Theorem C74_mtu id m fc s :
  fm_faces s !! id = Some fc -> mf_kind fc <> KTcp ->
  exists fc', change_mtu id m s = Some (Fm (<[id := fc']> (fm_faces s)) (fm_last s) (fm_notes s)) /\ mf_tmtu fc' = Z.of_N m /\
     mf_local fc' = mf_local fc /\ mf_state fc' = mf_state fc /\ mf_remote fc' = mf_remote fc /\ mf_is_local fc' = mf_is_local fc /\ mf_link fc' = mf_link fc /\ mf_kind fc' = mf_kind fc /\
     mf_svc fc' = mf_svc fc /\ mf_persist fc' = mf_persist fc /\ mf_expires fc' = mf_expires fc /\ mf_counters fc' = mf_counters fc.
Proof. intros A Ek. unfold change_mtu. rewrite A. destruct (mf_kind fc) eqn:E; [done| |]; eexists; (split; [reflexivity|]); cbn; by rewrite E. Qed.

(** ** Histories *)
Definition fm_reachable (s : fm) : Prop := exists l, fm_run fm_new l = Some s.
Lemma run_app s l e : fm_run s (l ++ [e]) = match fm_run s l with Some s' => fm_step s' e | None => None end.
Proof. revert s. induction l as [|e' l IH]; intros s; cbn; [by destruct (fm_step s e)|]. destruct (fm_step s e'); [apply IH|done]. Qed.
(** the faces that a step may add *)
Definition adds (e : fm_event) (fc : mface) : Prop :=
  match e with EvAdd fc' | EvReserved fc' _ | EvCreate _ (MadeNew fc') => fc = fc' | _ => False end.
(** what a step does to one face, and what it notifies *)
Inductive change (P : mface -> Prop) (s s' : fm) : Prop :=
| ch_none (E : s' = s)
| ch_add id fc r (Pf : P fc) (A : fm_faces s !! id = None) (L : (id <= 255 /\ fm_last s' = fm_last s \/ 255 < id /\ fm_last s' = id /\ id = (fm_last s + 1) mod 2 ^ 64)%N)
    (F : fm_faces s' = <[id := fc]> (fm_faces s)) (T : tells r id fc) (Nt : fm_notes s' = (ECreated, r) :: fm_notes s)
| ch_set id fc fc' (A : fm_faces s !! id = Some fc) (L : fm_last s' = fm_last s) (F : fm_faces s' = <[id := fc']> (fm_faces s))
    (K : (exists now p, updated now p fc fc') \/ fc' = close fc \/ (exists st, (st = Closing \/ st = Failed) /\ may_become (mf_state fc) st = true /\ fc' = set_state st fc) \/
         (exists m, mf_kind fc <> KTcp /\ fc' = set_tmtu (Z.of_N m) fc) \/ (exists u, mf_kind fc = KTcp /\ fc' = set_local u fc))
    (Nt : fm_notes s' = fm_notes s)
| ch_flip id fc0 fc k r (A : fm_faces s !! id = Some fc0) (A1 : fc = fc0 \/ exists u, mf_kind fc0 = KTcp /\ fc = set_local u fc0) (L : fm_last s' = fm_last s)
    (K : k = EUp /\ mf_state fc = Down /\ fm_faces s' = <[id := set_state Up fc]> (fm_faces s) \/ k = EDown /\ mf_state fc = Up /\ fm_faces s' = <[id := set_state Down fc]> (fm_faces s))
    (T : tells r id fc) (Nt : fm_notes s' = (k, r) :: fm_notes s)
| ch_gone id fc r (A : fm_faces s !! id = Some fc) (L : fm_last s' = fm_last s) (F : fm_faces s' = delete id (fm_faces s))
    (K : mf_state fc = Closing \/ mf_state fc = Failed) (T : tells r id fc) (Nt : fm_notes s' = (EDestroyed, r) :: fm_notes s).
Lemma add_change fc s s' id : add_face fc s = Some (s', id) ->
  fm_faces s !! id = None /\ (255 < id)%N /\ fm_last s' = id /\ (id = (fm_last s + 1) mod 2 ^ 64)%N /\ fm_faces s' = <[id := fc]> (fm_faces s) /\ fm_notes s' = (ECreated, properties_of id fc) :: fm_notes s.
Proof.
  unfold add_face. destruct (N.leb_spec ((fm_last s + 1) mod 2 ^ 64) 255); [done|].
  destruct (fm_faces s !! _) eqn:E; [done|]. intros [= <- <-]. done.
Qed.
Lemma step_change e s s' : fm_step s e = Some s' -> change (adds e) s s'.
Proof.
  destruct e as [fc|fc id|p m|now tag p|p|id st|id u|id m]; cbn [fm_step].
  - destruct (add_face fc s) as [[s1 id]|] eqn:E; [|done]. intros [= <-]. apply add_change in E as (A & B & C & D & F & G).
    eapply ch_add; [reflexivity|exact A|right; done|exact F|apply properties_tells|exact G].
  - unfold add_reserved. destruct (N.leb_spec id 255); [|done]. destruct (fm_faces s !! id) eqn:E; [done|]. intros [= <-].
    eapply ch_add; [reflexivity|exact E|left; done|done|apply properties_tells|done].
  - unfold create_done. destruct m as [fc|id].
    + destruct (mf_is_local fc || negb (is_true (p_lf p))); [|done]. destruct (add_face fc s) as [[s1 id]|] eqn:E; [|done]. intros [= <-].
      apply add_change in E as (A & B & C & D & F & G). eapply ch_add; [reflexivity|exact A|right; done|exact F|apply properties_tells|exact G].
    + destruct (fm_faces s !! id); [|done]. intros [= <-]. by apply ch_none.
  - destruct (C74_update now tag p s) as (s1 & c & b & -> & H). intros [= <-].
    destruct H as [(_ & _ & -> & _)|[(_ & -> & _)|(_ & id & fc & fc' & bd & _ & A & _ & _ & _ & _ & _ & U & ->)]]; [by apply ch_none|by apply ch_none|].
    eapply ch_set; [exact A|done|done|left; eauto|done].
  - destruct (C74_destroy p s) as (s1 & b & D & _). unfold destroy_face in D |- *. cbn. destruct (fm_faces s !! p_face p) as [fc|] eqn:A; intros [= <-]; [|by apply ch_none].
    eapply ch_set; [exact A|done|done|right; by left|done].
  - unfold change_state. destruct (fm_faces s !! id) as [fc|] eqn:A; [|done].
    destruct (decide (mf_state fc = st)); [intros [= <-]; by apply ch_none|].
    destruct (may_become (mf_state fc) st) eqn:Em; [|done]. destruct st; intros [= <-].
    + eapply ch_flip; [exact A|by left|done|left; split; [done|]; split; [|done]; by destruct (mf_state fc)|apply properties_tells|done].
    + eapply ch_flip; [exact A|by left|done|right; split; [done|]; split; [|done]; by destruct (mf_state fc)|apply properties_tells|done].
    + eapply ch_set; [exact A|done|done|do 2 right; left; exists Closing; split; [by left|]; done|done].
    + eapply ch_set; [exact A|done|done|do 2 right; left; exists Failed; split; [by right|]; done|done].
    + eapply ch_gone; [exact A|done|done|destruct (mf_state fc); try done; ((by left) || (by right))|apply properties_tells|done].
  - unfold reconnected. destruct (fm_faces s !! id) as [fc|] eqn:A; [|done]. destruct (mf_kind fc) eqn:Ek; [|done|done].
    assert (C : change_state id Up (put_face id (set_local u fc) s) = Some s' -> change (adds (EvReconnected id u)) s s').
    { unfold change_state. cbn [put_face fm_faces]. rewrite lookup_insert. cbn [mf_state set_local].
      destruct (decide (mf_state fc = Up)) as [e|ne].
      - intros [= <-]. eapply ch_set; [exact A|done|done|do 4 right; by exists u|done].
      - destruct (may_become (mf_state fc) Up) eqn:Em; [|done]. intros [= <-].
        eapply ch_flip; [exact A|right; by exists u|done|left; split; [done|]; split; [by cbn; destruct (mf_state fc)|cbn; by rewrite insert_insert]|apply properties_tells|done]. }
    destruct (mf_state fc); try exact C; intros [= <-]; by apply ch_none.
  - unfold change_mtu. destruct (fm_faces s !! id) as [fc|] eqn:A; [|done]. destruct (mf_kind fc) eqn:Ek; [done| |];
      (intros [= <-]; eapply ch_set; [exact A|done|done|do 3 right; left; exists m; by rewrite Ek|done]).
Qed.

Lemma tells_face r id fc : tells r id fc -> r_face r = id.
Proof. by intros [? _]. Qed.
(** a property of runs by induction on the last step *)
Lemma run_ind (Q : mface -> Prop) (I : fm -> Prop) :
  I fm_new -> (forall s s', I s -> change Q s s' -> I s') ->
  forall l s, Forall (fun e => forall fc, adds e fc -> Q fc) l -> fm_run fm_new l = Some s -> I s.
Proof.
  intros H0 HS l. induction l as [|e l IH] using rev_ind; intros s Hf H.
  - cbn in H. by injection H as <-.
  - rewrite run_app in H. destruct (fm_run fm_new l) as [s1|] eqn:E; [|done]. apply Forall_app in Hf as [Hf He].
    apply Forall_cons_1 in He as [He _]. apply (HS s1); [by apply IH|]. destruct (step_change _ _ _ H) as [E1|id fc r P1|id fc fc'|id fc0 fc k r|id fc r].
    + by apply ch_none.
    + eapply ch_add; eauto.
    + eapply ch_set; eauto.
    + eapply ch_flip; eauto.
    + eapply ch_gone; eauto.
Qed.
Lemma run_any l : Forall (fun e => forall fc, adds e fc -> True) l.
Proof. apply Forall_true. done. Qed.

Lemma last_told_cons id k r l : last_told id ((k, r) :: l) = if (r_face r =? id)%N then Some k else last_told id l.
Proof. done. Qed.
Lemma believed_cons id k r l : believed id ((k, r) :: l) <-> if (r_face r =? id)%N then k <> EDestroyed else believed id l.
Proof.
  unfold believed. rewrite last_told_cons. destruct (r_face r =? id)%N; [|done]. split; [by intros (k' & [= <-] & ?)|]. intros H. by exists k.
Qed.
(** identifiers given out are not above the last one, and the table is what was notified *)
Definition told (s : fm) : Prop :=
  (255 <= fm_last s < 2 ^ 64)%N /\ (forall id, is_Some (fm_faces s !! id) -> (id <= fm_last s)%N) /\
  (forall id, is_Some (fm_faces s !! id) <-> believed id (fm_notes s)) /\ coherent (fm_notes s) /\
  (forall id, (255 < id)%N -> times_created id (fm_notes s) <= 1 /\ ((fm_last s < id)%N -> times_created id (fm_notes s) = 0)).
Lemma told_keep s s' id fc fc' : told s -> fm_faces s !! id = Some fc -> fm_last s' = fm_last s -> fm_faces s' = <[id := fc']> (fm_faces s) ->
  fm_notes s' = fm_notes s -> told s'.
Proof.
  intros (H1 & H2 & H3 & H4 & H5) A L F Nt. unfold told. rewrite L, Nt.
  assert (S : forall i, is_Some (fm_faces s' !! i) <-> is_Some (fm_faces s !! i)).
  { intros i. rewrite F. destruct (decide (i = id)) as [->|ne]; [rewrite lookup_insert, A|by rewrite lookup_insert_ne]. split; eauto. }
  split; [done|]. split; [intros i Hi; apply H2, S, Hi|]. split; [intros i; rewrite S; apply H3|]. done.
Qed.
Lemma told_step Q s s' : told s -> change Q s s' -> told s'.
Proof.
  intros T C. destruct C as [->|id fc r _ A L F Tl Nt|id fc fc' A L F K Nt|id fc0 fc k r A A1 L K Tl Nt|id fc r A L F K Tl Nt]; [done| | | |].
  - destruct T as (H1 & H2 & H3 & H4 & H5). apply tells_face in Tl.
    assert (Hl : (fm_last s <= fm_last s' /\ id <= fm_last s' < 2 ^ 64 /\ (255 < id -> fm_last s < id))%N).
    { destruct L as [(? & ->)|(L1 & L2 & L3)]; [lia|]. rewrite L2.
      destruct (N.eq_dec (fm_last s + 1) (2 ^ 64)) as [e|ne]; [rewrite e, N.mod_same in L3 by lia; lia|]. rewrite N.mod_small in L3 by lia. lia. }
    unfold told. rewrite Nt, F. split; [lia|]. split.
    { intros i. destruct (decide (i = id)) as [->|ne]; [lia|]. rewrite lookup_insert_ne by done. intros ?%H2. lia. }
    split.
    { intros i. rewrite believed_cons, Tl. destruct (N.eqb_spec id i) as [->|ne]; [rewrite lookup_insert; split; eauto; done|]. rewrite lookup_insert_ne by done. apply H3. }
    split.
    { cbn. split; [done|]. rewrite Tl. split; [|done]. intros _. rewrite <- H3, A. by intros [??]. }
    intros i Hi. cbn. rewrite Tl. destruct (N.eqb_spec id i) as [->|ne].
    + destruct (H5 i Hi) as [_ H0]. rewrite H0 by lia. split; [lia|]. lia.
    + destruct (H5 i Hi) as [? H0]. split; [done|]. intros ?. apply H0. lia.
  - by eapply told_keep.
  - apply tells_face in Tl.
    assert (T1 : told (Fm (fm_faces s') (fm_last s') (fm_notes s))).
    { destruct K as [(_ & _ & F)|(_ & _ & F)]; eapply told_keep; eauto. }
    destruct T1 as (H1 & H2 & H3 & H4 & H5). cbn in H1, H2, H3, H4, H5. destruct T as (_ & _ & H3' & _).
    assert (Hk : k <> EDestroyed /\ k <> ECreated) by (by destruct K as [(-> & _)|(-> & _)]).
    unfold told. rewrite Nt. split; [done|]. split; [done|]. split.
    { intros i. rewrite believed_cons, Tl. destruct (N.eqb_spec id i) as [<-|ne]; [|apply H3]. rewrite H3, <- H3', A. split; [intros _; apply Hk|eauto]. }
    split; [cbn; split; [done|]; rewrite Tl; split; [intros ->; by destruct Hk|]; intros Hb; destruct Hb; apply H3'; rewrite A; eauto|].
    intros i Hi. destruct K as [(-> & _)|(-> & _)]; cbn; by apply H5.
  - apply tells_face in Tl. destruct T as (H1 & H2 & H3 & H4 & H5). unfold told. rewrite L, Nt, F. split; [done|]. split.
    { intros i [x Hx]. apply lookup_delete_Some in Hx as [_ Hx]. apply H2. eauto. }
    split.
    { intros i. rewrite believed_cons, Tl. destruct (N.eqb_spec id i) as [->|ne]; [rewrite lookup_delete; split; [by intros [??]|done]|]. rewrite lookup_delete_ne by done. apply H3. }
    split; [cbn; split; [done|]; rewrite Tl; split; [done|]; intros Hb; destruct Hb; apply H3; rewrite A; eauto|]. intros i Hi. cbn. by apply H5.
Qed.
Lemma told_new : told fm_new.
Proof.
  split; [cbn; lia|]. split; [intros id [??]; done|]. split; [intros id; split; [by intros [??]|by intros (k & [=] & _)]|]. split; [done|]. intros. cbn. lia.
Qed.
(** Whatever faces are made and whatever commands and state changes come, in any order: the faces in the table are exactly those that the notifications say
    exist; the notifications tell of a face only between its creation and its destruction; and no identifier above 255 is used twice. *)
Theorem C74_history s :
  fm_reachable s ->
  (forall id, is_Some (fm_faces s !! id) <-> believed id (fm_notes s)) /\ coherent (fm_notes s) /\
  (forall id, (255 < id)%N -> times_created id (fm_notes s) <= 1).
Proof.
  intros [l H]. assert (T : told s).
  { eapply (run_ind (fun _ => True)); [apply told_new|intros ????; by eapply told_step|apply run_any|exact H]. }
  destruct T as (_ & _ & H3 & H4 & H5). split; [done|]. split; [done|]. intros id Hid. by apply H5.
Qed.

(** the rest are statements about all faces in the table *)
Lemma each_face (P Q : mface -> Prop) :
  (forall fc, Q fc -> P fc) -> (forall now p fc fc', P fc -> updated now p fc fc' -> P fc') -> (forall st fc, P fc -> P (set_state st fc)) ->
  (forall u fc, mf_kind fc = KTcp -> P fc -> P (set_local u fc)) -> (forall m fc, P fc -> P (set_tmtu (Z.of_N m) fc)) ->
  forall l s, Forall (fun e => forall fc, adds e fc -> Q fc) l -> fm_run fm_new l = Some s -> forall id fc, fm_faces s !! id = Some fc -> P fc.
Proof.
  intros HQ HU HS HL HM l s Hl Hr. change ((fun s => forall id fc, fm_faces s !! id = Some fc -> P fc) s).
  eapply (run_ind Q); [done| |exact Hl|exact Hr]. clear l s Hl Hr. intros s s' I C id fc. destruct C as [->|i f r Hq A L F Tl Nt|i f f' A L F K Nt|i f0 f k r A A1 L K Tl Nt|i f r A L F K Tl Nt].
  - apply I.
  - rewrite F. destruct (decide (id = i)) as [->|ne]; [rewrite lookup_insert; intros [= <-]; by apply HQ|rewrite lookup_insert_ne by done; apply I].
  - rewrite F. destruct (decide (id = i)) as [->|ne]; [rewrite lookup_insert; intros [= <-]|rewrite lookup_insert_ne by done; apply I].
    specialize (I _ _ A). destruct K as [(now & p & K)|[->|[(st & _ & _ & ->)|[(m & _ & ->)|(u & ? & ->)]]]]; [by eapply HU| |by apply HS|by apply HM|by apply HL].
    unfold close. destruct (mf_state f); (done || by apply HS).
  - assert (If : P f) by (destruct A1 as [->|(u & ? & ->)]; [by eapply I|apply HL; [done|by eapply I]]).
    destruct K as [(_ & _ & F)|(_ & _ & F)]; rewrite F; (destruct (decide (id = i)) as [->|ne]; [rewrite lookup_insert; intros [= <-]; by apply HS|rewrite lookup_insert_ne by done; apply I]).
  - rewrite F. intros [_ Hf]%lookup_delete_Some. by eapply I.
Qed.
(** No command ever enables local fields on a face that is not local: if no face is made so, none is so at any time. *)
Definition local_ok (fc : mface) : Prop := forall o, mf_svc fc = Some o -> o_local o = true -> mf_is_local fc = true.
Theorem C74_local l s id fc :
  Forall (fun e => forall fc, adds e fc -> local_ok fc) l -> fm_run fm_new l = Some s -> fm_faces s !! id = Some fc -> local_ok fc.
Proof.
  intros Hl Hr. revert id fc. refine (each_face local_ok local_ok _ _ _ _ _ l s Hl Hr); [done| |by intros|by intros|by intros].
  intros now p f f' P U o' Ho' Hlf. destruct U as (_ & _ & -> & _ & _ & _ & _ & _ & U & _). unfold local_ok in P.
  destruct (mf_svc f) as [o|]; [|congruence]. destruct U as (o'' & E & U & _). assert (o'' = o') as -> by congruence.
  destruct (mf_is_local f); [done|]. cbn in U. by apply (P o); [|congruence].
Qed.
(** A face has an expiration time exactly if it is an on-demand datagram face with an idle timeout, if faces are made so. *)
Definition expiry_ok (fc : mface) : Prop := is_Some (mf_expires fc) <-> exists idle, mf_kind fc = KUnicast idle /\ (0 < idle)%Z /\ mf_persist fc = OnDemand.
Theorem C74_expiry l s id fc :
  Forall (fun e => forall fc, adds e fc -> expiry_ok fc) l -> fm_run fm_new l = Some s -> fm_faces s !! id = Some fc -> expiry_ok fc.
Proof.
  intros Hl Hr. revert id fc. refine (each_face expiry_ok expiry_ok _ _ _ _ _ l s Hl Hr); [done| |by intros|by intros|by intros].
  intros now p f f' P U. destruct U as (_ & _ & _ & _ & Ek & _ & _ & _ & _ & _ & _ & U1 & U2 & U3). unfold expiry_ok in *. rewrite Ek.
  destruct (decide (mf_persist f' = mf_persist f)) as [e|ne]; [rewrite e, U3 by (by left); done|].
  destruct (mf_kind f) as [|idle|].
  - rewrite U3 by (right; done). rewrite P. naive_solver.
  - destruct (decide (mf_persist f' = OnDemand)) as [e|n]; [destruct (Z.le_gt_cases idle 0)|].
    + rewrite (U2 idle) by (done || by right). split; [by intros [??]|]. intros (i & [= <-] & ? & _). lia.
    + rewrite (U1 idle) by (done || lia). split; [|eauto]. intros _. exists idle. split; [done|]. split; [lia|done].
    + rewrite (U2 idle) by (done || by left). split; [by intros [??]|]. naive_solver.
  - rewrite U3 by (right; done). rewrite P. naive_solver.
Qed.
(** An MTU that management shows is never one that was not set: sizes stay sensible. *)
Theorem C74_sized l s id fc :
  Forall (fun e => forall fc, adds e fc -> sized fc) l -> fm_run fm_new l = Some s -> fm_faces s !! id = Some fc -> sized fc.
Proof.
  intros Hl Hr. revert id fc. refine (each_face sized sized _ _ _ _ _ l s Hl Hr); [done| |by intros|by intros|intros m fc [_ H]; split; [cbn; lia|exact H]].
  intros now p f f' P U. destruct U as (_ & _ & _ & _ & _ & Et & _ & _ & U & _). destruct P as [P1 P2]. split; [by rewrite Et|].
  intros o' Ho'. destruct (mf_svc f) as [o|]; [|congruence]. destruct U as (o'' & E & _ & _ & _ & _ & _ & U1 & U2). assert (o'' = o') as -> by congruence.
  destruct (p_mtu p) as [m|]; [rewrite (U2 _ eq_refl); lia|]. rewrite (U1 eq_refl). by apply P2.
Qed.

(** ** From one time to a later one *)
Lemma later_ind (I : fm -> Prop) s :
  I s -> (forall s s', I s -> change (fun _ => True) s s' -> I s') -> forall l s', fm_run s l = Some s' -> I s'.
Proof.
  intros H0 HS l. revert s H0. induction l as [|e l IH]; intros s H0 s' H; cbn in H; [by injection H as <-|].
  destruct (fm_step s e) as [s1|] eqn:E; [|done]. apply (IH s1); [|done]. apply (HS s); [done|].
  destruct (step_change _ _ _ E) as [E1|id fc r P1|id fc fc'|id fc0 fc k r|id fc r]; [by apply ch_none|eapply ch_add; eauto|eapply ch_set; eauto|eapply ch_flip; eauto|eapply ch_gone; eauto].
Qed.
(** what never changes about a face *)
Definition same_face (fc fc' : mface) : Prop :=
  mf_remote fc' = mf_remote fc /\ (mf_kind fc <> KTcp -> mf_local fc' = mf_local fc) /\ mf_is_local fc' = mf_is_local fc /\ mf_link fc' = mf_link fc /\ mf_kind fc' = mf_kind fc /\
  (mf_kind fc = KTcp -> mf_tmtu fc' = mf_tmtu fc) /\
  (mf_svc fc' = None <-> mf_svc fc = None).
Definition ending (st : tstate) : Prop := st = Closing \/ st = Failed.
Lemma same_trans a b c : same_face a b -> same_face b c -> same_face a c.
Proof.
  intros (A1 & A2 & A3 & A4 & A5 & A6 & A7) (B1 & B2 & B3 & B4 & B5 & B6 & B7). unfold same_face. rewrite A5 in B2, B6.
  split; [congruence|]. split; [intros H; rewrite B2, A2 by done; done|]. do 3 (split; [congruence|]). split; [intros H; rewrite B6, A6 by done; done|]. by rewrite B7.
Qed.
Lemma same_refl a : same_face a a.
Proof. done. Qed.
Lemma same_updated now p fc fc' : updated now p fc fc' -> same_face fc fc'.
Proof.
  intros (A & B & C & D & E & F & G & _ & U & _). do 6 (split; [done|]). destruct (mf_svc fc) as [o|]; [|done]. destruct U as (o1 & -> & _). done.
Qed.
Lemma ending_updated now p fc fc' : updated now p fc fc' -> ending (mf_state fc) -> mf_state fc' = mf_state fc.
Proof. intros (_ & _ & _ & _ & _ & _ & _ & _ & _ & _ & U & _) [E|E]; apply U; rewrite E; by intros (_ & _ & _ & ?). Qed.
(** A face with an identifier above 255 remains the same for as long as it is in the table: its remote URI, scope, link type and transport do not change, its local URI
    only if it is a TCP face, which may reconnect, and the MTU of its transport only if it is not; and a face that
    is closing or has failed, for example after a destroy command, never goes up again: it stays so until it is gone, and once gone it does not come back. *)
Theorem C74_later s l s' id :
  fm_reachable s -> fm_run s l = Some s' -> (255 < id <= fm_last s)%N ->
  (fm_faces s !! id = None -> fm_faces s' !! id = None) /\
  (forall fc fc', fm_faces s !! id = Some fc -> fm_faces s' !! id = Some fc' -> same_face fc fc' /\ (ending (mf_state fc) -> mf_state fc' = mf_state fc)).
Proof.
  intros [l0 H0] Hr Hid. assert (T : told s).
  { eapply (run_ind (fun _ => True)); [apply told_new|intros ????; by eapply told_step|apply run_any|exact H0]. }
  set (I := fun s' => told s' /\ (id <= fm_last s')%N /\ (fm_faces s !! id = None -> fm_faces s' !! id = None) /\
    (forall fc fc', fm_faces s !! id = Some fc -> fm_faces s' !! id = Some fc' -> same_face fc fc' /\ (ending (mf_state fc) -> mf_state fc' = mf_state fc))).
  assert (HI : I s').
  { eapply (later_ind I s); [| |exact Hr].
    - split; [done|]. split; [lia|]. split; [done|]. intros fc fc' -> [= <-]. split; [|done]. unfold same_face. naive_solver.
    - clear Hr s'. intros s1 s2 (T1 & Hl & I1 & I2) C. split; [by eapply told_step|].
      destruct C as [->|i f r Hq A L F Tl Nt|i f f' A L F K Nt|i f0 f k r A A1 L K Tl Nt|i f r A L F K Tl Nt].
      + done.
      + assert (id <> i /\ fm_last s1 <= fm_last s2)%N as [ne Hle].
        { destruct T1 as (T1 & _). destruct L as [(? & ->)|(L1 & L2 & L3)]; [lia|]. rewrite L2.
          destruct (N.eq_dec (fm_last s1 + 1) (2 ^ 64)) as [e|ne]; [rewrite e, N.mod_same in L3 by lia; lia|]. rewrite N.mod_small in L3 by lia. lia. }
        split; [lia|]. rewrite F, lookup_insert_ne by done. done.
      + rewrite L, F. split; [done|]. destruct (decide (i = id)) as [->|ne]; [|rewrite lookup_insert_ne by done; done].
        rewrite lookup_insert. split; [intros Hn; rewrite I1 in A by done; done|]. intros fc fc' Hfc [= <-]. destruct (I2 _ _ Hfc A) as [S E].
        destruct K as [(now & p & U)|[->|[(st & Hst & Hm & ->)|[(m & Hk & ->)|(u & Hk & ->)]]]].
        * pose proof (same_updated _ _ _ _ U) as S'. split; [by eapply same_trans|].
          intros He. rewrite <- (E He). apply (ending_updated _ _ _ _ U). by rewrite (E He).
        * split; [unfold same_face, close in *; by destruct (mf_state f)|]. intros He. rewrite <- (E He). unfold close. specialize (E He). rewrite <- E in He.
          by destruct He as [He|He]; rewrite He.
        * split; [done|]. intros He. exfalso. rewrite <- (E He) in He. destruct He as [He|He]; rewrite He in Hm; by destruct Hst as [->| ->].
        * split; [|done]. eapply same_trans; [exact S|]. by repeat split.
        * split; [|done]. eapply same_trans; [exact S|]. by repeat split.
      + rewrite L. split; [done|].
        assert (F : exists st st', mf_state f = st' /\ (st' = Up \/ st' = Down) /\ fm_faces s2 = <[i := set_state st f]> (fm_faces s1)).
        { destruct K as [(_ & K & F)|(_ & K & F)]; [exists Up, Down; split; [done|]; split; [by right|done]|exists Down, Up; split; [done|]; split; [by left|done]]. }
        assert (Hf : same_face f0 f /\ mf_state f = mf_state f0).
        { destruct A1 as [->|(u & Hk & ->)]; by repeat split. }
        destruct Hf as [Sf Ef]. rewrite Ef in *.
        destruct F as (st & st' & Es & Hst & ->). destruct (decide (i = id)) as [->|ne]; [|rewrite lookup_insert_ne by done; done].
        rewrite lookup_insert. split; [intros Hn; rewrite I1 in A by done; done|]. intros fc fc' Hfc [= <-]. destruct (I2 _ _ Hfc A) as [S E].
        split; [eapply same_trans; [exact S|]; eapply same_trans; [exact Sf|]; by repeat split|]. intros He. exfalso. rewrite <- (E He), Es in He. by destruct He as [He|He]; rewrite He in Hst; destruct Hst.
      + rewrite L, F. split; [done|]. destruct (decide (i = id)) as [->|ne]; [by rewrite lookup_delete|]. by rewrite lookup_delete_ne by done. }
  destruct HI as (_ & _ & A & B). done.
Qed.

(** ** Datasets *)
Lemma match_spec f id fc : match_filter f id fc = true <-> satisfies f id fc.
Proof.
  assert (F : forall A (E : EqDecision A) (o : option A) x, fails o x = false <-> asks o x).
  { intros A E o x. unfold fails, asks. destruct o as [y|]; [|naive_solver]. rewrite negb_false_iff, bool_decide_eq_true. naive_solver. }
  assert (F' : forall A (E : EqDecision A) (o : option A) x, fails o x = true -> ~ asks o x) by (intros A E o x H1 H2; apply (F A E) in H2; congruence).
  unfold match_filter, satisfies.
  destruct (fails (f_face f) id) eqn:E1; [split; [done|]; intros (H & _); by apply F' in E1|]. apply F in E1.
  assert (S : fails (f_scheme f) (u_scheme (mf_remote fc)) && fails (f_scheme f) (u_scheme (mf_local fc)) = false <->
    forall t, f_scheme f = Some t -> u_scheme (mf_remote fc) = t \/ u_scheme (mf_local fc) = t).
  { rewrite andb_false_iff, !F. unfold asks. destruct (f_scheme f) as [t|]; [|split; [done|by left]]. split.
    - intros [H|H] t' [= <-]; [left|right]; by apply H.
    - intros H. destruct (H t eq_refl); [left|right]; by intros y [= <-]. }
  destruct (fails (f_scheme f) _ && _) eqn:E2; [split; [done|]; intros (_ & H & _); apply S in H; done|]. assert (E2' := proj1 S eq_refl). clear S.
  destruct (fails (f_remote f) _) eqn:E3; [split; [done|]; intros (_ & _ & H & _); by apply F' in E3|]. apply F in E3.
  destruct (fails (f_local f) _) eqn:E4; [split; [done|]; intros (_ & _ & _ & H & _); by apply F' in E4|]. apply F in E4.
  destruct (fails (f_is_local f) _) eqn:E5; [split; [done|]; intros (_ & _ & _ & _ & H & _); by apply F' in E5|]. apply F in E5.
  destruct (fails (f_persist f) _) eqn:E6; [split; [done|]; intros (_ & _ & _ & _ & _ & H & _); by apply F' in E6|]. apply F in E6.
  destruct (fails (f_link f) _) eqn:E7; [split; [done|]; intros (_ & _ & _ & _ & _ & _ & H); by apply F' in E7|]. apply F in E7. cbn. naive_solver.
Qed.
(** a row of the dataset of faces *)
Definition row_of (now : Z) (x : status) (id : N) (fc : mface) : Prop :=
  tells (st_props x) id fc /\ st_counters x = mf_counters fc /\
  match mf_svc fc with None => st_interval x = None /\ st_threshold x = None | Some o => st_interval x = Some (o_interval o) /\ st_threshold x = Some (o_threshold o) end /\
  (sized fc -> exists m, st_mtu x = Some m /\ mtu_is fc (Z.of_N m)) /\
  match mf_expires fc with
  | None => st_expires x = None
  | Some e => exists ms, st_expires x = Some ms /\ ((e <= now)%Z -> ms = 0%Z) /\ ((now <= e)%Z -> (ms * 1000000 <= e - now < (ms + 1) * 1000000)%Z)
  end.
Lemma status_row now id fc : row_of now (face_status now id fc) id fc.
Proof.
  unfold row_of, face_status. cbn. split; [apply properties_tells|]. split; [done|]. split; [by destruct (mf_svc fc)|]. split; [apply shown_ok|].
  destruct (mf_expires fc) as [e|]; [|done]. eexists. split; [reflexivity|].
  pose proof (Z.quot_rem' (e - now) 1000000) as Q. split; intros H.
  - assert (Z.rem (e - now) 1000000 <= 0 /\ -1000000 < Z.rem (e - now) 1000000)%Z as [R1 R2].
    { replace (e - now)%Z with (- (now - e))%Z by lia. rewrite Z.rem_opp_l by lia. pose proof (Z.rem_bound_pos (now - e) 1000000). lia. }
    generalize dependent (Z.rem (e - now) 1000000). generalize (Z.quot (e - now) 1000000). intros; lia.
  - pose proof (Z.rem_bound_pos (e - now) 1000000 ltac:(lia) ltac:(lia)) as R.
    generalize dependent (Z.rem (e - now) 1000000). generalize (Z.quot (e - now) 1000000). intros; lia.
Qed.
(** A query is answered with one row for every face in the table that satisfies the filter, and no other row; the list of faces is that for all faces. *)
Theorem C74_query now f s :
  exists ids, NoDup ids /\ (forall id, id ∈ ids <-> exists fc, fm_faces s !! id = Some fc /\ satisfies f id fc) /\
    Forall2 (fun x id => exists fc, fm_faces s !! id = Some fc /\ row_of now x id fc) (query_faces now f s) ids.
Proof.
  set (l := map_to_list (fm_faces s)). exists (omap (fun x => if match_filter f (fst x) (snd x) then Some (fst x) else None) l).
  assert (HN : NoDup l.*1) by apply NoDup_fst_map_to_list.
  assert (HL : forall x, x ∈ l <-> fm_faces s !! fst x = Some (snd x)) by (intros [i c]; apply elem_of_map_to_list).
  split; [|split].
  - clear HL. induction l as [|x l IH]; [constructor|]. cbn in HN. apply NoDup_cons in HN as [HN1 HN2]. cbn. destruct (match_filter f x.1 x.2); [|by apply IH].
    apply NoDup_cons. split; [|by apply IH]. intros (y & Hy & E)%elem_of_list_omap. destruct (match_filter f y.1 y.2); [|done]. injection E as E.
    apply HN1. rewrite <- E. apply elem_of_list_fmap. eauto.
  - intros id. rewrite elem_of_list_omap. split.
    + intros ([i c] & Hx%HL & E). cbn in *. destruct (match_filter f i c) eqn:M; [|done]. injection E as <-. exists c. split; [done|]. by apply match_spec.
    + intros (fc & Hf & M%match_spec). exists (id, fc). split; [by apply HL|]. cbn. by rewrite M.
  - unfold query_faces. fold l. assert (HL' : Forall (fun x => fm_faces s !! fst x = Some (snd x)) l) by (apply Forall_forall; intros x; apply HL).
    clear HL HN. induction l as [|x l IH]; [constructor|]. apply Forall_cons in HL' as [Hx HL']. cbn. destruct (match_filter f x.1 x.2); [|by apply IH].
    constructor; [|by apply IH]. exists (snd x). split; [done|]. apply status_row.
Qed.
Theorem C74_list now s : list_faces now s = query_faces now no_filter s /\ (forall id fc, satisfies no_filter id fc).
Proof.
  split; [|intros id fc; unfold satisfies, asks; naive_solver].
  unfold list_faces, query_faces. induction (map_to_list (fm_faces s)) as [|x l IH]; [done|]. cbn [map]. rewrite IH. done.
Qed.

(** ** A history: a TCP face is created, asked for again, becomes permanent, goes down, and fails as it ceases to be permanent *)
Definition ex_fc : mface :=
  MFace (Uri "tcp4" "tcp4://192.0.2.1:6363") (Uri "tcp4" "tcp4://192.0.2.2:50000") false PointToPoint KTcp (-1)
    (Some (Options false false true 100 65536 SSIZE_MAX)) Persistent Up None [].
Definition ex_params (f : N) (x : option persistency) : params := Params "" None f x None None None None None None.
Definition ex_history : list fm_event :=
  [EvCreate (ex_params 0 None) (MadeNew ex_fc); EvCreate (ex_params 0 None) (MadeOld 256); EvUpdate 0 (Some 256) (ex_params 0 (Some Permanent));
   EvState 256 Down; EvUpdate 0 None (ex_params 256 (Some Persistent))]%N.
Definition ex_see (l : list fm_event) : option (option (persistency * tstate) * list (event_kind * N)) :=
  (fun s => ((fun fc => (mf_persist fc, mf_state fc)) <$> fm_faces s !! 256%N, (fun x => (fst x, r_face (snd x))) <$> fm_notes s)) <$> fm_run fm_new l.
Example ex_down : ex_see (take 4 ex_history) = Some (Some (Permanent, Down), [(EDown, 256%N); (ECreated, 256%N)]).
Proof. vm_compute. reflexivity. Qed.
Example ex_failed : ex_see ex_history = Some (Some (Persistent, Failed), [(EDown, 256%N); (ECreated, 256%N)]).
Proof. vm_compute. reflexivity. Qed.
Example ex_gone : ex_see (ex_history ++ [EvState 256 Closed]) = Some (None, [(EDestroyed, 256%N); (EDown, 256%N); (ECreated, 256%N)]).
Proof. vm_compute. reflexivity. Qed.
Example ex_made : Forall (fun e => forall fc, adds e fc -> local_ok fc /\ expiry_ok fc /\ sized fc) ex_history.
Proof.
  assert (H : local_ok ex_fc /\ expiry_ok ex_fc /\ sized ex_fc).
  { split; [by intros o [= <-]|]. split; [split; [by intros [??]|by intros (? & [=] & _)]|]. split; [cbn; lia|]. intros o [= <-]. unfold SSIZE_MAX. cbn. lia. }
  unfold ex_history. repeat (apply Forall_cons; split; [intros fc Hfc; cbn in Hfc; (done || by subst fc)|]). apply Forall_nil. done.
Qed.
(** an update that is refused: local fields and an MTU on that face *)
Example ex_refused :
  (fun s => match update_face 0 None (Params "" None 256 None None None (Some 1400%N) (Some true) None None) s with Some (_, Response c (Some b)) => Some (c, b_lf b, b_mtu b, b_persist b) | _ => None end)
    <$> fm_run fm_new ex_history = Some (Some (409%N, Some true, Some 1400%N, None)).
Proof. vm_compute. reflexivity. Qed.
(** rows of a query by scheme *)
Example ex_query : (fun s => (length (query_faces 0 (Filter None (Some "tcp4") None None None None None) s), length (query_faces 0 (Filter None (Some "udp4") None None None None None) s)))
   <$> fm_run fm_new ex_history = Some (1, 0).
Proof. vm_compute. reflexivity. Qed.

Print Assumptions C74_create_codes.
Print Assumptions C74_create_request.
Print Assumptions C74_create.
Print Assumptions C74_create_answered.
Print Assumptions C74_update.
Print Assumptions C74_destroy.
Print Assumptions C74_state.
Print Assumptions C74_history.
Print Assumptions C74_local.
Print Assumptions C74_expiry.
Print Assumptions C74_sized.
Print Assumptions C74_later.
Print Assumptions C74_query.
Print Assumptions C74_list.
Print Assumptions C74_reconnect.
Print Assumptions C74_mtu.
