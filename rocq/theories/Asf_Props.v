(** C60: what ASF knows about faces and how it ranks them. *)
From stdpp Require Import gmap.
From Verif Require Import Lib Name_Model Name_Proof Packet_Model Nt_Model Tree_Model Tab_Model Tab_Spec Fw_Model St_Model Asf_Model Asf_Spec Asf_Rank Asf_Meas Asf_Exp Asf_Hist Asf_Fw.

Lemma prefix_take i (n : name) : take i n `prefix_of` n.
Proof. exists (drop i n). by rewrite take_drop. Qed.

(** * Ranking *)
(** faces that work go first, by smoothed RTT, then those that are not measured, then those that have
    timed out; ties go to the lower cost, then to the lower FaceId *)
Theorem C60_best know eligible l : match best_face know eligible l with
  | Some g => exists h, nh_face h = g /\ best know (fun h => eligible h = true) l h
  | None => forall h, h ∈ l -> eligible h = false
  end.
Proof.
  pose proof (best_face_spec know eligible l) as H. destruct (best_face know eligible l) as [g|]; [|done]. destruct H as (h & A & B & C & D). exists h. split; [done|]. split; [done|]. by split.
Qed.
(** only one face is that *)
Theorem C60_best_one know P l h1 h2 : best know P l h1 -> best know P l h2 -> nh_face h1 = nh_face h2.
Proof. intros (A1 & A2 & A3) (B1 & B2 & B3). apply (preferred_anti know); [by apply A3|by apply B3]. Qed.
(** a probe goes to an unmeasured face if there is one, to the cheapest *)
Theorem C60_probe know allowed r l : match face_to_probe know allowed r l with
  | Some (Some g) => exists h, nh_face h = g /\ probes_first know (fun h => allowed h = true) l h
  | Some None => forall h, h ∈ l -> allowed h = false
  | None => (exists h, h ∈ l /\ allowed h = true) /\ forall h, h ∈ l -> allowed h = true -> standing_of know h <> Unmeasured
  end.
Proof.
  pose proof (face_to_probe_spec know allowed r l) as H. destruct (face_to_probe know allowed r l) as [[g|]|]; [|done|done]. destruct H as (h & A & B & C & D). exists h. split; [done|]. split; [done|]. by split.
Qed.
(** FALSE: that a face is found whenever there is one.  The probabilities are added up with
    rounding: for six measured faces they stay below 1, and the largest random number, 1 - 2^-53, is not
    below the sum *)
Theorem C60_choose_refuted : exists know l, (forall h, h ∈ l -> exists srtt, standing_of know h = Working srtt) /\
  face_to_probe know (fun _ => true) (2 ^ 53 - 1, -53)%Z l = None.
Proof.
  exists (fun g => Some (1000, 1000)%Z), (map (fun g => NextHop g 0) [256; 257; 258; 259; 260; 261]%N). split; [|by vm_compute]. intros h _. by exists 1000%Z.
Qed.

Section meas.
  Variable est : Type.
  Variable est_new : est.
  Variable est_add : est -> Z -> est.
  Variable est_rto : est -> Z.
  Variable mine : name -> bool.
  Variable max_timeouts : nat.
  Variable life probing_interval : Z.
  Notation asf := (asf est).
  Notation step := (asf_step est est_new est_add est_rto mine max_timeouts life probing_interval).
  Notation run := (asf_run est est_new est_add est_rto mine max_timeouts life probing_interval).
  Notation due_of := (due_of est).

  (** nothing changes but what is known about face [g] in namespace [m] *)
  Definition only_face (a a' : asf) (t : Z) (m : name) (g : N) : Prop :=
    (forall m' g', (m', g') <> (m, g) -> face_info m' g' a' = face_info m' g' a) /\
    (forall q, due_of a' q = due_of a q) /\ as_now a' = t /\ as_probes a' = as_probes a.
  Definition nothing (a a' : asf) (t : Z) : Prop :=
    (forall m g, face_info m g a' = face_info m g a) /\ (forall q, due_of a' q = due_of a q) /\ as_now a' = t /\ as_probes a' = as_probes a.

  (** an Interest [n] has gone to [g], by the FIB entry for [p]: [g] is known from now on; it is to
      answer within the estimated timeout, unless it is already waited for *)
  Theorem C60_send a t p n g sent a' : step a t (ASend p n g sent) = Some a' -> exists m fi,
    accounted_in mine p n m /\ only_face a a' t m g /\ face_info m g a' = Some fi /\ fi_life fi = (t + life)%Z /\
    match face_info m g a with
    | None => fi_est fi = est_new /\ fi_rtt fi = (-1)%Z /\ fi_n fi = 0 /\ fi_last fi = n /\ fi_timer fi = Some ((t + est_rto est_new)%Z, n)
    | Some f0 => fi_est fi = fi_est f0 /\ fi_rtt fi = fi_rtt f0 /\ fi_n fi = fi_n f0 /\
        match fi_timer f0 with
        | Some x => fi_timer fi = Some x /\ fi_last fi = fi_last f0
        | None => fi_timer fi = Some ((t + est_rto (fi_est f0))%Z, n) /\ fi_last fi = n
        end
    end.
  Proof using.
    unfold asf_step. destruct (t <? as_now a)%Z; [done|]. intros H. clear est_add max_timeouts probing_interval.
    pose proof (get_or_create_spec est mine life p n (at_time est t a)) as G. pose proof H as H'. unfold after_send in H'. destruct (get_or_create_ns est mine life p n (at_time est t a)) as [[a1 m]|]; [|done]. destruct G as (_ & _ & G). clear H'.
    pose proof (fun m g => after_send_spec est est_new est_rto mine life p n g sent (at_time est t a) a' m g) as HS. exists m.
    destruct (after_send_spec est est_new est_rto mine life p n g sent (at_time est t a) a' m g H) as (S1 & _ & S3 & S4 & S5). specialize (S1 G eq_refl). rewrite S1. eexists. split; [done|]. split.
    { split; [|split; [exact S3|split; [exact S4|exact S5]]]. intros m' g' Hne. destruct (after_send_spec est est_new est_rto mine life p n g sent (at_time est t a) a' m' g' H) as (_ & S2 & _). rewrite S2; [done|].
      intros [Hx ->]. apply Hne. by rewrite (accounted_fun _ _ _ _ _ Hx G). }
    split; [done|]. change (face_info m g (at_time est t a)) with (face_info m g a). destruct (face_info m g a) as [f0|]; simpl; [|done].
    unfold schedule_timeout, extend_face. simpl. destruct (fi_timer f0) as [[? ?]|]; simpl; done.
  Qed.
  (** [g] has returned the Data [d] for the PIT entry [n], [rtt] after the Interest went to it *)
  Theorem C60_data a t n d g rtt a' : step a t (AData n d g rtt) = Some a' ->
    (exists m fi fi', looked_up_in mine a n m /\ face_info m g a = Some fi /\ only_face a a' t m g /\ face_info m g a' = Some fi' /\
       fi_n fi' = 0 /\ fi_life fi' = (t + life)%Z /\ fi_last fi' = fi_last fi /\
       (fi_last fi `prefix_of` d -> fi_timer fi' = None) /\ (~ fi_last fi `prefix_of` d -> fi_timer fi' = fi_timer fi) /\
       match rtt with
       | Some r => fi_rtt fi' = r /\ fi_est fi' = est_add (fi_est fi) r
       | None => fi_rtt fi' = fi_rtt fi /\ fi_est fi' = fi_est fi
       end) \/
    ((forall m, looked_up_in mine a n m -> face_info m g a = None) /\ nothing a a' t).
  Proof using.
    unfold asf_step. destruct (t <? as_now a)%Z; [done|]. intros [= <-]. clear est_new est_rto max_timeouts probing_interval.
    set (a0 := at_time est t a). pose proof (fun m g1 => on_data_spec est est_add mine life n d g rtt a0 m g1) as HS.
    assert (Hl : forall m, looked_up_in mine a0 n m <-> looked_up_in mine a n m) by done. assert (Hf : forall m g, face_info m g a0 = face_info m g a) by done.
    destruct (HS [] g) as (_ & _ & S3 & S4 & S5).
    assert (Hno : (forall m, looked_up_in mine a n m -> face_info m g a = None) -> nothing a (on_data est est_add mine life n d g rtt a0) t).
    { intros Hn. split; [|done]. intros m g'. destruct (HS m g') as (A & B & _). pose proof (get_ns_spec est mine life n a0) as G. destruct (get_ns est mine life n a0) as [a3 [m1|]].
      - destruct G as (_ & _ & G). destruct (decide (m = m1 /\ g' = g)) as [[-> ->]|Hne]; [rewrite A by done; rewrite Hf, Hn by done; done|]. rewrite B; [done|]. intros [Hx ->]. apply Hne. by rewrite (looked_up_fun _ _ _ _ _ _ Hx G).
      - rewrite B; [done|]. intros [Hx _]. by apply G in Hx. }
    pose proof (get_ns_spec est mine life n a0) as G. destruct (get_ns est mine life n a0) as [a3 [m|]].
    2: { right. assert (Hn : forall m, looked_up_in mine a n m -> face_info m g a = None) by (intros m Hm; by apply G in Hm). split; [done|by apply Hno]. }
    destruct G as (_ & _ & G). destruct (face_info m g a) as [fi|] eqn:Ef.
    2: { right. assert (Hn : forall m, looked_up_in mine a n m -> face_info m g a = None) by (intros m' Hm; by rewrite (looked_up_fun _ _ _ _ _ _ Hm G)). split; [done|by apply Hno]. }
    left. exists m, fi, (upd_data est est_add life t d rtt fi). split; [done|]. split; [done|]. destruct (HS m g) as (A & _). rewrite A, Hf, Ef by done. split.
    { split; [|done]. intros m' g' Hne. destruct (HS m' g') as (_ & B & _). rewrite B; [done|]. intros [Hx ->]. apply Hne. by rewrite (looked_up_fun _ _ _ _ _ _ Hx G). }
    split; [done|]. unfold upd_data, cancel_timeout. assert (El : forall x, fi_last (extend_face est life t (match x with Some r => record_rtt est est_add r fi | None => fi end)) = fi_last fi) by (by intros [r|]).
    rewrite El. pose proof (name_prefixb_prefix (fi_last fi) d) as Hp. destruct (name_prefixb (fi_last fi) d).
    - assert (fi_last fi `prefix_of` d) as Hpr by (by apply Hp). by destruct rtt; repeat split.
    - assert (~ fi_last fi `prefix_of` d) as Hpr by (intros Hx; by apply Hp in Hx). by destruct rtt; repeat split.
  Qed.
  (** what a Nack for [n] from [g], or the timeout of an Interest [n], does in state [a] *)
  Definition strikes (nack : bool) (a a' : asf) (t : Z) (n : name) (g : N) : Prop :=
    (exists m fi fi', looked_up_in mine a n m /\ face_info m g a = Some fi /\ only_face a a' t m g /\ face_info m g a' = Some fi' /\
       fi_est fi' = fi_est fi /\ fi_last fi' = fi_last fi /\
       (fi_last fi `prefix_of` n -> fi_timer fi' = None) /\ (~ fi_last fi `prefix_of` n -> fi_timer fi' = fi_timer fi) /\
       if decide (nack = false /\ (S (fi_n fi) < max_timeouts)%nat)
       then fi_n fi' = S (fi_n fi) /\ fi_rtt fi' = fi_rtt fi /\ fi_life fi' = (t + life)%Z
       else fi_n fi' = 0 /\ fi_rtt fi' = (-2)%Z /\ fi_life fi' = fi_life fi) \/
    ((forall m, looked_up_in mine a n m -> face_info m g a = None) /\ nothing a a' t).
  Lemma strikes_spec nack a t n g : as_now a = t -> strikes nack a (on_timeout_or_nack est mine max_timeouts life n g nack a) t n g.
  Proof using.
    clear est_new probing_interval est_add est_rto. intros Ht.
    pose proof (fun m g1 => on_strike_spec est mine max_timeouts life n g nack a m g1) as HS.
    destruct (HS [] g) as (_ & _ & S3 & S4 & S5). rewrite Ht in S4.
    assert (Hno : (forall m, looked_up_in mine a n m -> face_info m g a = None) -> nothing a (on_timeout_or_nack est mine max_timeouts life n g nack a) t).
    { intros Hn. split; [|done]. intros m g'. destruct (HS m g') as (A & B & _). pose proof (get_ns_spec est mine life n a) as G. destruct (get_ns est mine life n a) as [a3 [m1|]].
      - destruct G as (_ & _ & G). destruct (decide (m = m1 /\ g' = g)) as [[-> ->]|Hne]; [rewrite A by done; rewrite Hn by done; done|]. rewrite B; [done|]. intros [Hx ->]. apply Hne. by rewrite (looked_up_fun _ _ _ _ _ _ Hx G).
      - rewrite B; [done|]. intros [Hx _]. by apply G in Hx. }
    pose proof (get_ns_spec est mine life n a) as G. destruct (get_ns est mine life n a) as [a3 [m|]].
    2: { right. assert (Hn : forall m, looked_up_in mine a n m -> face_info m g a = None) by (intros m Hm; by apply G in Hm). split; [done|by apply Hno]. }
    destruct G as (_ & _ & G). destruct (face_info m g a) as [fi|] eqn:Ef.
    2: { right. assert (Hn : forall m, looked_up_in mine a n m -> face_info m g a = None) by (intros m' Hm; by rewrite (looked_up_fun _ _ _ _ _ _ Hm G)). split; [done|by apply Hno]. }
    left. exists m, fi, (upd_strike est max_timeouts life t n nack fi). split; [done|]. split; [done|]. destruct (HS m g) as (A & _). rewrite A, Ef, Ht by done. split.
    { split; [|done]. intros m' g' Hne. destruct (HS m' g') as (_ & B & _). rewrite B; [done|]. intros [Hx ->]. apply Hne. by rewrite (looked_up_fun _ _ _ _ _ _ Hx G). }
    split; [done|]. unfold upd_strike. pose proof (name_prefixb_prefix (fi_last fi) n) as Hp.
    destruct (Nat.ltb_spec (S (fi_n fi)) max_timeouts) as [Hlt|Hge]; destruct nack; cbn [andb negb]; [rewrite decide_False by (by intros [? _])|rewrite decide_True by done|rewrite decide_False by (by intros [? _])|rewrite decide_False by (intros [_ ?]; lia)];
      unfold record_timeout, cancel_timeout; cbn [set_n extend_face fi_est fi_rtt fi_n fi_last fi_life fi_timer]; destruct (name_prefixb (fi_last fi) n) eqn:En; cbn [set_n extend_face fi_est fi_rtt fi_n fi_last fi_life fi_timer];
      (split; [done|]); (split; [done|]); (split; [first [done|intros Hx; by apply Hp in Hx]|]); (split; [first [done|intros Hx; by destruct Hx; apply Hp]|done]).
  Qed.
  Theorem C60_nack a t n g a' : step a t (ANack n g) = Some a' -> strikes true (at_time est t a) a' t n g.
  Proof using. unfold asf_step. destruct (t <? as_now a)%Z; [done|]. intros [= <-]. by apply strikes_spec. Qed.
  (** the timer set for an Interest [n] fires, not before its time, and is gone *)
  Theorem C60_timeout a t m g a' : step a t (ATimeout m g) = Some a' -> exists fi d n a1,
    face_info m g a = Some fi /\ fi_timer fi = Some (d, n) /\ (d <= t)%Z /\
    only_face a a1 t m g /\ face_info m g a1 = Some (FInfo (fi_est fi) (fi_rtt fi) (fi_last fi) (fi_n fi) (fi_life fi) None) /\
    (forall q, is_Some (as_ns a1 !! q) <-> is_Some (as_ns a !! q)) /\ strikes false a1 a' t n g.
  Proof using.
    unfold asf_step. destruct (t <? as_now a)%Z; [done|]. set (a0 := at_time est t a). change (face_info m g a0) with (face_info m g a). destruct (face_info m g a) as [fi|] eqn:Ef; [|done].
    destruct (fi_timer fi) as [[d n]|] eqn:Et; [|done]. destruct (Z.leb_spec d t); [|done]. intros [= <-].
    set (f1 := FInfo (fi_est fi) (fi_rtt fi) (fi_last fi) (fi_n fi) (fi_life fi) None). set (a1 := set_face est m g f1 a0).
    assert (Hd : is_Some (as_ns a0 !! m)) by (by eapply (face_info_dom est m g a)).
    exists fi, d, n, a1. split; [done|]. split; [done|]. split; [done|]. pose proof (fun m' g' => set_face_spec est m g f1 a0 m' g' Hd) as Hs. split; [|split; [|split]].
    - split; [|split; [|split]].
      + intros m' g' Hne. unfold a1. rewrite Hs, decide_False; [done|]. intros [-> ->]. by apply Hne.
      + intros q. unfold a1. by rewrite set_face_due.
      + unfold a1, set_face. by destruct (as_ns a0 !! m).
      + unfold a1, set_face. by destruct (as_ns a0 !! m).
    - unfold a1. by rewrite Hs, decide_True.
    - intros q. unfold a1. by rewrite set_face_dom.
    - apply strikes_spec. unfold a1, set_face. by destruct (as_ns a0 !! m).
  Qed.

  (** the story of a face determines what is known about it: nothing if it was never used; otherwise
      the timeouts in a row, modulo the limit, the RTTs that the estimate is made of, and whether
      the face is out of use, in use, with its last RTT, or not measured *)
  Theorem C60_history l a m g : run asf_init l = Some a -> exists o, story mine step m g l a o /\
    match o with
    | None => face_info m g a = None
    | Some h => exists fi k, face_info m g a = Some fi /\ in_a_row h k /\ fi_n fi = (k mod Nat.max 1 max_timeouts)%nat /\
        fi_est fi = foldl est_add est_new (rtts h) /\
        ((out_of_use max_timeouts h /\ fi_rtt fi = (-2)%Z) \/ in_use max_timeouts h (fi_rtt fi) \/ (never_used max_timeouts h /\ fi_rtt fi = (-1)%Z))
    end.
  Proof using.
    intros H. destruct (run_story est est_new est_add est_rto mine max_timeouts life probing_interval l a m g H) as (o & A & B). exists o. split; [done|]. destruct o as [h|], (face_info m g a) as [fi|]; try done.
    destruct B as ((k & B1 & B2) & B3 & B4). by exists fi, k.
  Qed.
  Global Instance hit_dec : EqDecision hit.
  Proof using. solve_decision. Defined.
  Lemma story_run m g l a o : story mine step m g l a o -> run asf_init l = Some a.
  Proof using. induction 1 as [|l a o t e a' o' _ IH H _]; [done|]. by rewrite run_snoc, IH. Qed.
  (** and there is only one story *)
  Theorem C60_story m g l a o o' : story mine step m g l a o -> story mine step m g l a o' -> o = o'.
  Proof using.
    intros H. revert o'. induction H as [|l a o t e a' o1 Hs IH He Hn]; intros o' H'.
    - inversion H' as [|l0 a0 o0 t0 e0 a1 o2 ? ? ? El]; [done|]. by destruct l0.
    - inversion H' as [El|l0 a0 o0 t0 e0 a1 o2 Hs0 He0 Hn0 El]; [by destruct l|]. subst o2 a1. apply app_inj_2 in El as [-> El]; [|done]. injection El as -> ->.
      assert (a0 = a) as -> by (apply story_run in Hs, Hs0; congruence). specialize (IH _ Hs0) as <-. clear Hs Hs0 H' He He0.
      destruct Hn as (A1 & A2 & A3 & A4), Hn0 as (B1 & B2 & B3 & B4). destruct (decide (o1 = o')) as [?|Hne]; [done|]. exfalso.
      assert (N1 : ~ sends_in mine e m g) by (intros Hx; apply Hne; rewrite (A1 Hx), (B1 Hx); done).
      assert (N2 : forall x, ~ hits_in mine a e m g x) by (intros x Hx; apply Hne; rewrite (A2 x Hx), (B2 x Hx); done).
      assert (N3 : ~ ends_in e m g) by (intros Hx; apply Hne; rewrite (A3 Hx), (B3 Hx); done).
      apply Hne. by rewrite (A4 N1 N2 N3), (B4 N1 N2 N3).
  Qed.

  (** ** Probing *)
  Definition first_of (a : asf) (m : name) : bool := match as_ns a !! m with Some x => ni_first x | None => false end.
  (** a probe was sent: the namespace is not due until the next probing timer of [p] *)
  Theorem C60_probed a t p n a' : step a t (AProbed p n) = Some a' -> exists m, accounted_in mine p n m /\
    due_of a' m = false /\ (forall q, q <> m -> due_of a' q = due_of a q) /\
    as_probes a' = as_probes a ++ [((t + probing_interval)%Z, p)] /\ (forall q g, face_info q g a' = face_info q g a) /\ as_now a' = t.
  Proof using.
    unfold asf_step. destruct (t <? as_now a)%Z; [done|]. set (a0 := at_time est t a). unfold after_probe. pose proof (get_or_create_spec est mine life p n a0) as G. destruct (get_or_create_ns est mine life p n a0) as [[a1 m]|]; [|done].
    intros [= <-]. destruct G as ([G1 _ G3 G4 G5] & [x Hx] & G). exists m. split; [done|]. unfold set_due. rewrite Hx. unfold schedule_probe, Asf_Meas.due_of, face_info in *. simpl.
    split; [by rewrite lookup_insert|]. split; [intros q Hq; rewrite lookup_insert_ne by done; apply G4|]. split; [by rewrite G5, G3|]. split; [|by rewrite G3]. intros q g. etransitivity; [|exact (G1 q g)]. destruct (decide (q = m)) as [->|Hq]; [by rewrite lookup_insert, Hx|by rewrite lookup_insert_ne].
  Qed.
  (** whether a probe is needed: if the namespace is due.  The first time, the timer is started *)
  Theorem C60_needed a t p n r a' b : as_now a = t -> probing_needed est mine life p n r a = Some (a', b) -> exists m, accounted_in mine p n m /\
    b = due_of a m /\ (forall q, due_of a' q = due_of a q) /\ (forall q g, face_info q g a' = face_info q g a) /\ first_of a' m = true /\
    (as_probes a' = as_probes a \/ as_probes a' = as_probes a ++ [((t + r)%Z, p)]) /\
    (first_of a m = true -> as_probes a' = as_probes a) /\ (first_of a m = false -> as_probes a' = as_probes a ++ [((t + r)%Z, p)]).
  Proof using.
    intros Ht. unfold probing_needed.
    assert (Hfirst : forall q a1, first_mine est mine (candidates p n) a = Some (a1, q) -> forall m, first_of a1 m = first_of a m).
    { assert (Hl : forall l b q a1, first_mine est mine l b = Some (a1, q) -> forall m, first_of a1 m = first_of b m); [|by apply Hl]. clear.
      assert (Hm : forall b n m, first_of (meas_of est n b) m = first_of b m).
      { intros b n m. unfold meas_of, first_of. destruct (as_ns b !! n) as [x|] eqn:E; [done|]. simpl. destruct (decide (m = n)) as [->|Hm]; [by rewrite lookup_insert, E|by rewrite lookup_insert_ne]. }
      induction l as [|n0 l IH]; intros b q a1 H m; simpl in H; [done|]. destruct (mine n0); [injection H as <- <-; apply Hm|]. rewrite (IH _ _ _ H m). apply Hm. }
    pose proof (get_or_create_spec est mine life p n a) as G. unfold get_or_create_ns in G |- *. destruct (first_mine est mine (candidates p n) a) as [[a1 m]|] eqn:Efm; [|done]. specialize (Hfirst _ _ eq_refl m).
    assert (Hfe : first_of (extend_ns est life m a1) m = first_of a1 m) by (unfold extend_ns, first_of; destruct (as_ns a1 !! m) as [x|] eqn:E; [simpl; by rewrite lookup_insert|by rewrite E]).
    set (a2 := extend_ns est life m a1) in *. destruct G as ([G1 _ G3 G4 G5] & [x Hx] & G). rewrite Hx. intros [= <- <-]. exists m. split; [done|].
    assert (Hd : ni_due x = due_of a m) by (rewrite <- G4; unfold Asf_Meas.due_of; by rewrite Hx). split; [done|].
    assert (Hf : ni_first x = first_of a m) by (rewrite <- Hfirst, <- Hfe; unfold first_of; by rewrite Hx). rewrite <- Hf.
    destruct (ni_first x) eqn:E1.
    - split; [done|]. split; [done|]. split; [unfold first_of; by rewrite Hx|]. split; [by left|]. done.
    - unfold set_first, schedule_probe. simpl. rewrite Hx. unfold Asf_Meas.due_of, face_info, first_of in *. simpl. split; [|split; [|split]].
      + intros q. rewrite <- G4. destruct (decide (q = m)) as [->|Hq]; [by rewrite lookup_insert, Hx|by rewrite lookup_insert_ne].
      + intros q g. rewrite <- (G1 q g). destruct (decide (q = m)) as [->|Hq]; [by rewrite lookup_insert, Hx|by rewrite lookup_insert_ne].
      + by rewrite lookup_insert.
      + rewrite G5, G3, Ht. split; [by right|]. done.
  Qed.
  (** a probing timer of [p] fires: the namespace found for [p] is due *)
  Theorem C60_probe_timer a t j a' : step a t (AProbeTimer j) = Some a' -> exists d p, as_probes a !! j = Some (d, p) /\ (d <= t)%Z /\
    as_probes a' = delete j (as_probes a) /\ (forall q g, face_info q g a' = face_info q g a) /\ as_now a' = t /\
    forall q, (looked_up_in mine a p q -> due_of a' q = true) /\ (~ looked_up_in mine a p q -> due_of a' q = due_of a q).
  Proof using.
    unfold asf_step. destruct (t <? as_now a)%Z; [done|]. set (a0 := at_time est t a). change (as_probes a0) with (as_probes a). destruct (as_probes a !! j) as [[d p]|]; [|done]. destruct (Z.leb_spec d t); [|done].
    set (a1 := Asf t (as_ns a0) (delete j (as_probes a))). pose proof (get_ns_spec est mine life p a1) as G. destruct (get_ns est mine life p a1) as [a2 [m|]]; intros [= <-]; exists d, p; (split; [done|]); (split; [done|]).
    - destruct G as ([G1 G2 G3 G4 G5] & G0 & G). apply G2 in G0 as [x Hx]. unfold set_due. rewrite Hx. unfold Asf_Meas.due_of, face_info in *. simpl. split; [exact G5|]. split; [|split; [exact G3|]].
      + intros q g. change (match as_ns a !! q with Some x0 => ni_faces x0 !! g | None => None end) with (match as_ns a1 !! q with Some x0 => ni_faces x0 !! g | None => None end). rewrite <- (G1 q g). destruct (decide (q = m)) as [->|Hq]; [by rewrite lookup_insert, Hx|by rewrite lookup_insert_ne].
      + intros q. split.
        * intros Hq. assert (q = m) as -> by (by eapply looked_up_fun). by rewrite lookup_insert.
        * intros Hq. assert (q <> m) by (intros ->; by apply Hq). rewrite lookup_insert_ne by done. exact (G4 q).
    - destruct G as [-> G]. split; [done|]. split; [done|]. split; [done|]. intros q. split; [|done]. intros Hq. by apply G in Hq.
  Qed.

  (** how long a namespace is kept.  Each use makes it at least [life] from now, and never less than it was;
      it ends when that time has come, and not before.  What else there can be is a namespace of another
      strategy, tried on the way and kept for 4 s *)
  Theorem C60_expiry a t e a' m : step a t e = Some a' ->
    (uses est mine a e m -> expiry_of est a' m = Some (Z.max (default (t + 4000000000) (expiry_of est a m)) (t + life))%Z) /\
    (e = AEntryEnd m -> exists x, expiry_of est a m = Some x /\ (x <= t)%Z /\ expiry_of est a' m = None) /\
    (~ uses est mine a e m -> e <> AEntryEnd m -> expiry_of est a' m = expiry_of est a m \/
       expiry_of est a m = None /\ expiry_of est a' m = Some (t + 4000000000)%Z /\ mine m = false /\ exists p n, asks e p n /\ (m = p \/ exists k, (length p < k <= length n)%nat /\ m = take (Nat.min k 32) n)).
  Proof using. apply expiry_step. Qed.

  (** ** What is not so *)
  (** FALSE: that the history always goes on.  A forwarding hint can lead to a FIB entry [p] that another
      strategy is chosen for, with a prefix as long as the Interest name or longer: then there is no
      namespace for the measurements, and the daemon stops in an assertion *)
  Theorem C60_defined_refuted a t p n g sent : mine p = false -> (length n <= length p)%nat -> step a t (ASend p n g sent) = None.
  Proof using.
    intros Hp Hl. unfold asf_step. destruct (t <? as_now a)%Z; [done|]. unfold after_send. pose proof (get_or_create_spec est mine life p n (at_time est t a)) as G. destruct (get_or_create_ns _ _ _ _ _ _) as [[a1 m]|]; [|done].
    destruct G as (_ & _ & [[? _]|(_ & _ & k & Hk & _)]); [congruence|lia].
  Qed.
  (** FALSE: that the answers of a face are taken into account.  With a forwarding hint Interests are
      accounted for under the FIB entry of the delegation, but answers under the Interest name: what is
      known about the face there never changes *)
  Theorem C60_hint_refuted a t p n g rtt d a' g' : ~ p `prefix_of` n -> (step a t (AData n d g rtt) = Some a' \/ step a t (ANack n g) = Some a') ->
    face_info p g' a' = face_info p g' a.
  Proof using.
    intros Hp H. assert (Hl : forall b : asf, ~ looked_up_in mine b n p). { intros b [(Hx & _) _]. apply Hp. transitivity (take 32 n); [done|]. apply prefix_take. }
    unfold asf_step in H. destruct (t <? as_now a)%Z; [by destruct H|]. destruct H as [[= <-]|[= <-]].
    - destruct (on_data_spec est est_add mine life n d g rtt (at_time est t a) p g') as (_ & B & _). rewrite B; [done|]. intros [Hx _]; by apply Hl in Hx.
    - destruct (on_strike_spec est mine max_timeouts life n g true (at_time est t a) p g') as (_ & B & _). rewrite B; [done|]. intros [Hx _]; by apply Hl in Hx.
  Qed.
  (** FALSE: that faces are probed.  If the FIB entry is above the namespace the strategy is chosen
      for, no probing timer ever makes a namespace due *)
  Definition above (p : name) : Prop := forall q, q `prefix_of` p -> mine q = false.
  Theorem C60_probing_refuted l a : run asf_init l = Some a ->
    (forall t p n r, (t, ANeeded p n r) ∈ l -> above p) -> (forall t p n, (t, AProbed p n) ∈ l -> above p) -> forall m, due_of a m = false.
  Proof using.
    intros H Hn Hp. cut ((forall m, due_of a m = false) /\ Forall (fun x => above (snd x)) (as_probes a)); [by intros [? _]|]. revert a H. induction l as [|[t e] l IH] using rev_ind; intros a' H.
    - injection H as <-. split; [|constructor]. intros m. unfold Asf_Meas.due_of. simpl. by rewrite lookup_empty.
    - rewrite run_snoc in H. destruct (run asf_init l) as [a|] eqn:E; [|done].
      destruct (IH ltac:(intros t' p' n' r' Hi; eapply Hn, elem_of_app; left; exact Hi) ltac:(intros t' p' n' Hi; eapply Hp, elem_of_app; left; exact Hi) a eq_refl) as [Hd Hf]. clear IH.
      assert (Hlast : forall x, x = (t, e) -> x ∈ l ++ [(t, e)]) by (intros x ->; apply elem_of_app; right; by left).
      assert (Hsame : (forall q, due_of a' q = due_of a q) /\ as_probes a' = as_probes a -> (forall m, due_of a' m = false) /\ Forall (fun x => above (snd x)) (as_probes a')) by (intros [S1 S2]; rewrite S2; split; [intros m; by rewrite S1|done]).
      destruct e as [p n g|p n g sent|p n r|p n|n d g rtt|n g|m0 g|m0 g|m0|j].
      + apply Hsame. unfold asf_step in H. destruct (t <? as_now a)%Z; [done|]. unfold get_face_info in H. pose proof (get_or_create_spec est mine life p n (at_time est t a)) as G. destruct (get_or_create_ns _ _ _ _ _ _) as [[a1 m1]|]; [|done]. injection H as <-. destruct G as ([_ _ _ G4 G5] & _). split; [exact G4|exact G5].
      + apply C60_send in H as (m1 & fi & _ & (_ & S3 & _ & S5) & _). by apply Hsame.
      + unfold asf_step in H. destruct (t <? as_now a)%Z; [done|]. destruct (probing_needed est mine life p n r (at_time est t a)) as [[a1 b]|] eqn:Epn; [|done]. injection H as <-.
        apply (C60_needed _ t) in Epn as (m1 & _ & _ & S3 & _ & _ & [Sp|Sp] & _); [by apply Hsame| |done]. split; [intros m; rewrite S3; apply Hd|]. simpl. rewrite Sp. apply Forall_app. split; [exact Hf|]. constructor; [|constructor]. simpl. eapply (Hn t p n r), Hlast. done.
      + apply C60_probed in H as (m1 & _ & S1 & S2 & Sp & _). split; [intros m; destruct (decide (m = m1)) as [->|Hm]; [done|by rewrite S2]|]. rewrite Sp. apply Forall_app. split; [done|]. constructor; [|constructor]. simpl. eapply (Hp t p n), Hlast. done.
      + apply C60_data in H as [(m1 & fi & fi' & _ & _ & (_ & S3 & _ & S5) & _)|[_ (_ & S3 & _ & S5)]]; by apply Hsame.
      + apply C60_nack in H as [(m1 & fi & fi' & _ & _ & (_ & S3 & _ & S5) & _)|[_ (_ & S3 & _ & S5)]]; by apply Hsame.
      + apply C60_timeout in H as (fi & d & n & a1 & _ & _ & _ & (_ & S3 & _ & S5) & _ & _ & H). apply Hsame.
        destruct H as [(m1 & fi1 & fi' & _ & _ & (_ & R3 & _ & R5) & _)|[_ (_ & R3 & _ & R5)]]; (split; [intros q; by rewrite R3, S3|by rewrite R5]).
      + apply Hsame. unfold asf_step in H. destruct (t <? as_now a)%Z; [done|]. change (as_ns (at_time est t a)) with (as_ns a) in H. destruct (as_ns a !! m0) as [x|] eqn:Ex; [|done]. destruct (face_info m0 g (at_time est t a)); [|done]. destruct (_ <=? _)%Z; [|done]. injection H as <-.
        split; [|done]. intros q. unfold Asf_Meas.due_of. simpl. destruct (decide (q = m0)) as [->|Hq]; [by rewrite lookup_insert, Ex|by rewrite lookup_insert_ne].
      + unfold asf_step in H. destruct (t <? as_now a)%Z; [done|]. change (as_ns (at_time est t a)) with (as_ns a) in H. destruct (as_ns a !! m0) as [x|] eqn:Ex; [|done]. destruct (_ <=? _)%Z; [|done]. injection H as <-.
        split; [|done]. intros q. specialize (Hd q). unfold Asf_Meas.due_of in *. simpl. destruct (decide (q = m0)) as [->|Hq]; [by rewrite lookup_delete|by rewrite lookup_delete_ne].
      + apply C60_probe_timer in H as (d & p & Hj & _ & Hpr & _ & _ & Hdue). rewrite Forall_forall in Hf. split.
        * intros q. destruct (Hdue q) as [_ Hq]. rewrite Hq; [done|]. intros [(Hpre & _) Hm]. assert (Hab : above p) by (apply (Hf (d, p)); by eapply elem_of_list_lookup_2). rewrite (Hab q) in Hm; [done|]. transitivity (take 32 p); [done|apply prefix_take].
        * rewrite Hpr. apply Forall_forall. intros y Hy. apply Hf. rewrite delete_take_drop in Hy. apply elem_of_app in Hy as [Hy|Hy]; [by eapply elem_of_take in Hy as (? & ? & _); eapply elem_of_list_lookup_2|]. apply elem_of_list_lookup in Hy as [k Hk]. rewrite lookup_drop in Hk. by eapply elem_of_list_lookup_2.
  Qed.
End meas.

(** ** Cases that meet the hypotheses *)
Definition xs (k : N) : comp := (8, [k])%N.
Definition SEC : Z := 1000000000.
(** the last RTT as estimate, one second to answer; three timeouts; five minutes; one minute *)
Definition ex_step (mine : name -> bool) := asf_step Z 0%Z (fun _ r => r) (fun _ => SEC) mine 3 (300 * SEC) (60 * SEC).
Definition ex_run (mine : name -> bool) := asf_run Z 0%Z (fun _ r => r) (fun _ => SEC) mine 3 (300 * SEC) (60 * SEC) asf_init.
Definition ex_sees (mine : name -> bool) (l : list (Z * asf_ev)) (P : asf Z -> bool) : bool := match ex_run mine l with Some a => P a | None => false end.
Definition rtt_is (m : name) (g : N) (r : Z) (a : asf Z) : bool := match face_info m g a with Some fi => (fi_rtt fi =? r)%Z | None => false end.
Definition everywhere (_ : name) : bool := true.
Definition under12 (n : name) : bool := name_prefixb [xs 1; xs 2] n.
(** an Interest /1/2 by the FIB entry /1, three times, at [t] *)
Definition ex_p : name := [xs 1].
Definition ex_i (k : N) : name := [xs 1; xs k].
Example C60_history_ex :
  (* answered after 20 ms *)
  ex_sees everywhere [(0, ASend ex_p (ex_i 2) 257 true); (20000000, AData (ex_i 2) (ex_i 2) 257 (Some 20000000))]%Z (rtt_is ex_p 257 20000000) = true /\
  (* two timeouts; the third is one too many *)
  ex_sees everywhere [(0, ASend ex_p (ex_i 2) 257 true); (SEC, ATimeout ex_p 257); (SEC, ASend ex_p (ex_i 3) 257 true); (2 * SEC, ATimeout ex_p 257); (2 * SEC, ASend ex_p (ex_i 4) 257 true)]%Z (rtt_is ex_p 257 (-1)) = true /\
  ex_sees everywhere [(0, ASend ex_p (ex_i 2) 257 true); (SEC, ATimeout ex_p 257); (SEC, ASend ex_p (ex_i 3) 257 true); (2 * SEC, ATimeout ex_p 257); (2 * SEC, ASend ex_p (ex_i 4) 257 true); (3 * SEC, ATimeout ex_p 257)]%Z (rtt_is ex_p 257 (-2)) = true /\
  (* a Nack counts at once *)
  ex_sees everywhere [(0, ASend ex_p (ex_i 2) 257 true); (20000000, ANack (ex_i 2) 257)]%Z (rtt_is ex_p 257 (-2)) = true.
Proof. by vm_compute. Qed.
(** kept for 300 s after the last use; the prefix of another strategy, tried on the way, for 4 s *)
Definition kept_until (m : name) (x : option Z) (a : asf Z) : bool := bool_decide (expiry_of Z a m = x).
Example C60_expiry_ex :
  ex_sees everywhere [(0, ASend ex_p (ex_i 2) 257 true); (SEC, ANack (ex_i 2) 257)]%Z (kept_until ex_p (Some (SEC + (300 * SEC))%Z)) = true /\
  ex_sees under12 [(7, ASend ex_p (ex_i 2) 257 true)]%Z (fun a => kept_until ex_p (Some (4 * SEC + 7)%Z) a && kept_until (ex_i 2) (Some (7 + Z.max (4 * SEC) (300 * SEC))%Z) a) = true.
Proof. by vm_compute. Qed.
(** probing: first a timer, then the namespace is due, until a probe was sent *)
Definition due_is (m : name) (b : bool) (a : asf Z) : bool := eqb (due_of Z a m) b.
Example C60_probing_ex :
  ex_sees everywhere [(0, ANeeded ex_p (ex_i 2) SEC)]%Z (due_is ex_p false) = true /\
  ex_sees everywhere [(0, ANeeded ex_p (ex_i 2) SEC); (SEC, AProbeTimer 0)]%Z (due_is ex_p true) = true /\
  ex_sees everywhere [(0, ANeeded ex_p (ex_i 2) SEC); (SEC, AProbeTimer 0); (SEC, ANeeded ex_p (ex_i 2) 7); (SEC, AProbed ex_p (ex_i 2))]%Z (fun a => due_is ex_p false a && bool_decide (as_probes a = [(61 * SEC, ex_p)]%Z)) = true.
Proof. by vm_compute. Qed.
Example C60_best_ex : let know g := if (g =? 258)%N then Some (-2, 5000)%Z else if (g =? 257)%N then Some (40000, 40000)%Z else if (g =? 256)%N then Some (90000, 30000)%Z else None in
  let l := [NextHop 256 30; NextHop 257 20; NextHop 258 10; NextHop 259 1; NextHop 260 2] in
  best_face know (fun _ => true) l = Some 256%N /\ best_face know (fun h => negb (nh_face h =? 256)%N) l = Some 257%N /\
  best_face know (fun h => (257 <? nh_face h)%N) l = Some 259%N /\ best_face know (fun _ => false) l = None /\
  face_to_probe know (fun _ => true) (1, -1)%Z l = Some (Some 259%N) /\ face_to_probe know (fun h => (nh_face h <? 259)%N) (1, -1)%Z l = Some (Some 256%N) /\
  face_to_probe know (fun h => (nh_face h <? 259)%N) (3, -2)%Z l = Some (Some 257%N).
Proof. by vm_compute. Qed.
(** C60_defined_refuted: ASF is chosen for /1 only; the delegation leads to the FIB entry /9/9 *)
Definition under1 (n : name) : bool := name_prefixb [xs 1] n.
Example C60_defined_ex : under1 [xs 9; xs 9] = false /\ under1 (ex_i 2) = true /\ (length (ex_i 2) <= length [xs 9; xs 9])%nat.
Proof. by vm_compute; repeat constructor. Qed.
(** C60_hint_refuted: three answers, and 257 is still not measured under /9 *)
Definition hinted (k : N) (t : Z) : list (Z * asf_ev) := [(t, ASend [xs 9] (ex_i k) 257 true); (t + 20000000, AData (ex_i k) (ex_i k) 257 (Some 20000000))]%Z.
Example C60_hint_ex : ex_sees everywhere (hinted 2 0 ++ hinted 3 SEC ++ hinted 4 (2 * SEC)) (rtt_is [xs 9] 257 (-1)) = true.
Proof. by vm_compute. Qed.
(** C60_probing_refuted: ASF is chosen for /1/2, the FIB entry is /1 *)
Example C60_above_ex : ex_sees under12 [(0, ANeeded ex_p (ex_i 2) SEC); (SEC, AProbeTimer 0)]%Z (due_is (ex_i 2) false) = true /\ forall q, q `prefix_of` ex_p -> under12 q = false.
Proof.
  split; [by vm_compute|]. intros q [k Hk]. unfold under12. destruct (name_prefixb [xs 1; xs 2] q) eqn:E; [|done]. apply name_prefixb_prefix in E as [k2 ->]. done.
Qed.
(** FALSE: that only a face that did not answer is given up on.  None of these Interests was sent, as
    their hop limits were used up *)
Theorem C60_unsent_refuted : exists l a fi, ex_run everywhere l = Some a /\ (forall t p n g sent, (t, ASend p n g sent) ∈ l -> sent = false) /\ (forall t n g, (t, ANack n g) ∉ l) /\
  face_info ex_p 257 a = Some fi /\ fi_rtt fi = (-2)%Z.
Proof.
  set (l := [(0, ASend ex_p (ex_i 2) 257 false); (SEC, ATimeout ex_p 257); (SEC, ASend ex_p (ex_i 3) 257 false); (2 * SEC, ATimeout ex_p 257); (2 * SEC, ASend ex_p (ex_i 4) 257 false); (3 * SEC, ATimeout ex_p 257)]%Z).
  assert (H : ex_sees everywhere l (rtt_is ex_p 257 (-2)) = true) by (vm_compute; reflexivity). unfold ex_sees in H. destruct (ex_run everywhere l) as [a|] eqn:E; [|discriminate H]. unfold rtt_is in H. destruct (face_info ex_p 257 a) as [fi|] eqn:Ef; [|discriminate H]. apply Z.eqb_eq in H.
  exists l, a, fi. split; [exact E|]. clear E. split; [|split; [|split; [exact Ef|exact H]]]; unfold l.
  - intros t p n g sent Hin. rewrite !elem_of_cons, elem_of_nil in Hin. destruct Hin as [?|[?|[?|[?|[?|[?|?]]]]]]; by simplify_eq.
  - intros t n g Hin. rewrite !elem_of_cons, elem_of_nil in Hin. destruct Hin as [?|[?|[?|[?|[?|[?|?]]]]]]; by simplify_eq.
Qed.
Print Assumptions C60_best.
Print Assumptions C60_best_one.
Print Assumptions C60_probe.
Print Assumptions C60_choose_refuted.
Print Assumptions C60_send.
Print Assumptions C60_data.
Print Assumptions C60_nack.
Print Assumptions C60_timeout.
Print Assumptions C60_history.
Print Assumptions C60_story.
Print Assumptions C60_probed.
Print Assumptions C60_needed.
Print Assumptions C60_probe_timer.
Print Assumptions C60_expiry.
Print Assumptions C60_defined_refuted.
Print Assumptions C60_hint_refuted.
Print Assumptions C60_probing_refuted.
Print Assumptions C60_unsent_refuted.
