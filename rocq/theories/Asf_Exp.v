(** How long ASF's measurements are kept *)
From stdpp Require Import gmap.
From Verif Require Import Lib Name_Model Name_Proof Packet_Model Nt_Model Tree_Model Tab_Model Tab_Spec Fw_Model St_Model Asf_Model Asf_Spec Asf_Meas.

Section exp.
  Variable est : Type.
  Variable est_new : est.
  Variable est_add : est -> Z -> est.
  Variable est_rto : est -> Z.
  Variable mine : name -> bool.
  Variable max_timeouts : nat.
  Variable life probing_interval : Z.
  Notation asf := (asf est).
  Notation get_ns := (get_ns est mine life).
  Notation get_or_create_ns := (get_or_create_ns est mine life).
  Notation set_face := (set_face est).
  Notation step := (asf_step est est_new est_add est_rto mine max_timeouts life probing_interval).

  (** until when the measurements of namespace [m] are kept *)
  Definition expiry_of (a : asf) (m : name) : option Z := match as_ns a !! m with Some x => Some (ni_expiry x) | None => None end.
  (** [e] is about Interest [n], by the FIB entry for [p] *)
  Definition asks (e : asf_ev) (p n : name) : Prop :=
    (exists g, e = ALook p n g) \/ (exists g sent, e = ASend p n g sent) \/ (exists r, e = ANeeded p n r) \/ e = AProbed p n.
  (** [e] is about something that comes back for [n], or fails to *)
  Definition hears (a : asf) (e : asf_ev) (n : name) : Prop :=
    (exists d g rtt, e = AData n d g rtt) \/ (exists g, e = ANack n g) \/
    (exists m g fi d, e = ATimeout m g /\ face_info m g a = Some fi /\ fi_timer fi = Some (d, n)) \/
    (exists j d, e = AProbeTimer j /\ as_probes a !! j = Some (d, n)).
  (** the event makes use of what is known in [m] *)
  Definition uses (a : asf) (e : asf_ev) (m : name) : Prop :=
    (exists p n, asks e p n /\ accounted_in mine p n m) \/ (exists n, hears a e n /\ looked_up_in mine a n m).

  Ltac clr := clear est_new est_add est_rto max_timeouts probing_interval.
  Lemma meas_exp n a q : expiry_of (meas_of est n a) q = if decide (q = n) then Some (default (as_now a + 4000000000)%Z (expiry_of a q)) else expiry_of a q.
  Proof using.
    unfold meas_of, expiry_of. destruct (as_ns a !! n) as [x|] eqn:E; case_decide as H; subst; try (by rewrite E); try done; simpl; [by rewrite lookup_insert, E|by rewrite lookup_insert_ne].
  Qed.
  Lemma extend_exp m a q : is_Some (as_ns a !! m) -> expiry_of (extend_ns est life m a) q = if decide (q = m) then Some (Z.max (default 0 (expiry_of a q)) (as_now a + life))%Z else expiry_of a q.
  Proof using.
    intros [x E]. unfold extend_ns, expiry_of. rewrite E. simpl. case_decide as H; subst; [by rewrite lookup_insert, E|by rewrite lookup_insert_ne].
  Qed.
  Lemma first_exp l a a1 m : first_mine est mine l a = Some (a1, m) -> as_now a1 = as_now a /\ mine m = true /\
    forall q, expiry_of a1 q = expiry_of a q /\ q <> m \/ (expiry_of a q = None /\ expiry_of a1 q = Some (as_now a + 4000000000)%Z /\ (q = m \/ mine q = false) /\ q ∈ l) \/ (q = m /\ is_Some (expiry_of a q) /\ expiry_of a1 q = expiry_of a q).
  Proof using.
    revert a. induction l as [|n l IH]; intros a; simpl; [done|]. destruct (mine n) eqn:En.
    - intros [= <- <-]. split; [unfold meas_of; by destruct (as_ns a !! n)|]. split; [done|]. intros q. rewrite meas_exp. case_decide as Hq; [|by left]. subst q. right.
      destruct (expiry_of a n) as [x|] eqn:E; simpl; [right; split; [done|]; split; [by eexists|done]|left]. split; [done|]. split; [done|]. split; [by left|by left].
    - intros H. apply IH in H as (Hn & Hm & H). assert (Hnow : as_now (meas_of est n a) = as_now a) by (unfold meas_of; by destruct (as_ns a !! n)).
      split; [congruence|]. split; [done|]. intros q. specialize (H q). rewrite Hnow, meas_exp in H. destruct (decide (q = n)) as [->|Hq].
      + assert (n <> m) by congruence. destruct H as [[H _]|[(H & _)|(? & _)]]; [|done|done]. rewrite H. destruct (expiry_of a n) as [x|] eqn:E; simpl; [by left|]. right. left. split; [done|]. split; [done|]. split; [by right|by left].
      + destruct H as [?|[(H1 & H2 & H3 & H4)|?]]; [by left|right; left; split; [done|]; split; [done|]; split; [done|by right]|right; by right].
  Qed.
  Definition kept_or_tried (a a1 : asf) (t : Z) (p n q : name) : Prop :=
    expiry_of a1 q = expiry_of a q \/ (expiry_of a q = None /\ expiry_of a1 q = Some (t + 4000000000)%Z /\ mine q = false /\ (q = p \/ exists k, (length p < k <= length n)%nat /\ q = take (Nat.min k 32) n)).
  Lemma create_exp p n a a1 m : get_or_create_ns p n a = Some (a1, m) -> as_now a1 = as_now a /\ accounted_in mine p n m /\
    expiry_of a1 m = Some (Z.max (default (as_now a + 4000000000) (expiry_of a m)) (as_now a + life))%Z /\
    forall q, q <> m -> kept_or_tried a a1 (as_now a) p n q.
  Proof using.
    clr. intros H. pose proof (get_or_create_spec est mine life p n a) as G. rewrite H in G. destruct G as (_ & _ & Hacc). unfold Asf_Model.get_or_create_ns in H.
    destruct (first_mine est mine (candidates p n) a) as [[a0 m0]|] eqn:F; [|done]. injection H as <- <-. pose proof (first_mine_spec est mine (candidates p n) a) as G. rewrite F in G. destruct G as (_ & Hd & _).
    apply first_exp in F as (Hn & Hm & F). split; [unfold extend_ns; by destruct (as_ns a0 !! m0)|]. split; [done|]. split.
    - rewrite extend_exp, decide_True, Hn by done. f_equal. f_equal. destruct (F m0) as [[_ ?]|[(H1 & H2 & _)|(_ & [x H1] & H2)]]; [done|rewrite H1, H2; done|rewrite H2, H1; done].
    - intros q Hq. unfold kept_or_tried. rewrite extend_exp, decide_False by done. destruct (F q) as [[? _]|[(H1 & H2 & [?|H3] & H4)|(? & _)]]; [by left|done| |done].
      right. split; [done|]. split; [done|]. split; [done|]. unfold candidates in H4. apply elem_of_cons in H4 as [H4|H4]; [by left|]. right.
      apply elem_of_list_fmap in H4 as (k & -> & Hk%elem_of_seq). exists k. split; [lia|done].
  Qed.
  Lemma get_exp n a : let '(a1, o) := get_ns n a in as_now a1 = as_now a /\ as_probes a1 = as_probes a /\ forall q,
    (looked_up_in mine a n q -> o = Some q /\ is_Some (expiry_of a q) /\ expiry_of a1 q = Some (Z.max (default 0 (expiry_of a q)) (as_now a + life))%Z) /\
    (~ looked_up_in mine a n q -> expiry_of a1 q = expiry_of a q).
  Proof using.
    clr. pose proof (get_ns_spec est mine life n a) as G. assert (E : forall a1 m, get_ns n a = (a1, Some m) -> a1 = extend_ns est life m a).
    { intros a1 m. unfold Asf_Model.get_ns. destruct (longest_of _ _ _ _) as [m0|]; [|done]. by destruct (mine m0); intros [= <- <-]. }
    destruct (get_ns n a) as [a1 [m|]].
    - destruct G as (G1 & G2 & G3). split; [apply G1|]. split; [apply G1|]. rewrite (E _ _ eq_refl). intros q. rewrite extend_exp by done. split.
      + intros Hq. assert (q = m) as -> by (by eapply looked_up_fun). rewrite decide_True by done. split; [done|]. split; [|done]. unfold expiry_of. destruct G2 as [x ->]. by eexists.
      + intros Hq. rewrite decide_False; [done|]. by intros ->.
    - destruct G as [-> G]. split; [done|]. split; [done|]. intros q. split; [|done]. by intros ?%G.
  Qed.
  Lemma face_exp m g fi a q : expiry_of (set_face m g fi a) q = expiry_of a q.
  Proof using. unfold Asf_Model.set_face, expiry_of. destruct (as_ns a !! m) as [x|] eqn:E; [|done]. simpl. destruct (decide (q = m)) as [->|Hq]; [by rewrite lookup_insert, E|by rewrite lookup_insert_ne]. Qed.
  Lemma due_exp m b a q : expiry_of (set_due est m b a) q = expiry_of a q.
  Proof using. unfold set_due, expiry_of. destruct (as_ns a !! m) as [x|] eqn:E; [|done]. simpl. destruct (decide (q = m)) as [->|Hq]; [by rewrite lookup_insert, E|by rewrite lookup_insert_ne]. Qed.
  Lemma first_set_exp m a q : expiry_of (set_first est m a) q = expiry_of a q.
  Proof using. unfold set_first, expiry_of. destruct (as_ns a !! m) as [x|] eqn:E; [|done]. simpl. destruct (decide (q = m)) as [->|Hq]; [by rewrite lookup_insert, E|by rewrite lookup_insert_ne]. Qed.

  (** the namespace is used: kept for another [life], or more if it was to be kept for longer *)
  Definition prolonged (a a' : asf) (t : Z) (m : name) : Prop := expiry_of a' m = Some (Z.max (default (t + 4000000000) (expiry_of a m)) (t + life))%Z.
  Lemma ask_step a t e a' p n : asks e p n -> step a t e = Some a' -> exists m, accounted_in mine p n m /\ prolonged a a' t m /\ forall q, q <> m -> kept_or_tried a a' t p n q.
  Proof using.
    intros Ha. unfold asf_step. destruct (t <? as_now a)%Z; [done|]. set (b := at_time est t a).
    assert (Hall : forall a1 m, get_or_create_ns p n b = Some (a1, m) -> (forall q, expiry_of a' q = expiry_of a1 q) -> exists m, accounted_in mine p n m /\ prolonged a a' t m /\ forall q, q <> m -> kept_or_tried a a' t p n q).
    { intros a1 m H He. apply create_exp in H as (_ & H1 & H2 & H3). exists m. split; [done|]. unfold prolonged, kept_or_tried. split; [rewrite He; exact H2|]. intros q Hq. rewrite He. by apply H3. }
    destruct Ha as [(g & ->)|[(g & sent & ->)|[(r & ->)| ->]]].
    - unfold get_face_info. destruct (get_or_create_ns p n b) as [[a1 m]|] eqn:E; [|done]. simpl. intros [= <-]. by eapply Hall.
    - unfold after_send. destruct (get_or_create_ns p n b) as [[a1 m]|] eqn:E; [|done]. intros [= <-]. eapply Hall; [done|]. intros q. apply face_exp.
    - unfold probing_needed. destruct (get_or_create_ns p n b) as [[a1 m]|] eqn:E; [|done]. destruct (as_ns a1 !! m) as [x|]; [|done]. simpl. intros [= <-]. eapply Hall; [done|]. intros q. destruct (ni_first x); [done|]. by rewrite first_set_exp.
    - unfold after_probe. destruct (get_or_create_ns p n b) as [[a1 m]|] eqn:E; [|done]. intros [= <-]. eapply Hall; [done|]. intros q. apply (due_exp m false a1).
  Qed.
  Lemma hear_step a t e a' n : hears a e n -> step a t e = Some a' -> forall q, (looked_up_in mine a n q -> is_Some (expiry_of a q) /\ prolonged a a' t q) /\ (~ looked_up_in mine a n q -> expiry_of a' q = expiry_of a q).
  Proof using.
    intros Ha. unfold asf_step. destruct (t <? as_now a)%Z; [done|]. set (b := at_time est t a).
    assert (Hall : forall (c a1 a' : asf) o, get_ns n c = (a1, o) -> as_now c = t -> (forall q, expiry_of c q = expiry_of a q) -> (forall q, is_Some (as_ns c !! q) <-> is_Some (as_ns a !! q)) -> (forall q, expiry_of a' q = expiry_of a1 q) ->
      forall q, (looked_up_in mine a n q -> is_Some (expiry_of a q) /\ prolonged a a' t q) /\ (~ looked_up_in mine a n q -> expiry_of a' q = expiry_of a q)).
    { clear a'. intros c a1 a' o H Ht Hc Hd He q. pose proof (get_exp n c) as G. rewrite H in G. destruct G as (_ & _ & G). destruct (G q) as [G1 G2].
      assert (Hl : looked_up_in mine c n q <-> looked_up_in mine a n q) by (unfold looked_up_in, longest_defined; by setoid_rewrite Hd).
      rewrite Hl in G1, G2. rewrite Hc in *. unfold prolonged. rewrite He. split; [|exact G2]. intros Hq. apply G1 in Hq as (_ & [x Hx] & H2). split; [by eexists|]. rewrite H2, Hx, Ht. done. }
    destruct Ha as [(d & g & rtt & ->)|[(g & ->)|[(m & g & fi & d & -> & Hf & Hfi)|(j & d & -> & Hj)]]].
    - intros [= <-]. unfold on_data. destruct (get_ns n b) as [a1 o] eqn:E. eapply Hall; [exact E|done|done|done|]. intros q. destruct o as [m|]; [|done]. destruct (face_info m g a1); [|done]. apply face_exp.
    - intros [= <-]. unfold on_timeout_or_nack. destruct (get_ns n b) as [a1 o] eqn:E. eapply Hall; [exact E|done|done|done|]. intros q. destruct o as [m|]; [|done]. destruct (face_info m g a1); [|done]. destruct (_ && _); apply face_exp.
    - change (face_info m g b) with (face_info m g a). rewrite Hf, Hfi. destruct (d <=? t)%Z; [|done]. intros [= <-]. set (c := set_face _ _ _ _). unfold on_timeout_or_nack. destruct (get_ns n c) as [a1 o] eqn:E.
      eapply Hall; [exact E| | | |].
      + unfold c, Asf_Model.set_face. by destruct (as_ns b !! m).
      + intros q. unfold c. by rewrite face_exp.
      + intros q. unfold c. rewrite (set_face_dom est). done.
      + intros q. destruct o as [m1|]; [|done]. destruct (face_info m1 g a1); [|done]. destruct (_ && _); apply face_exp.
    - change (as_probes b) with (as_probes a). rewrite Hj. destruct (d <=? t)%Z; [|done]. destruct (get_ns n _) as [a1 o] eqn:E. intros [= <-]. eapply Hall; [exact E|done|done|done|]. intros q. destruct o as [m|]; [|done]. apply due_exp.
  Qed.
  Lemma end_step a t m a' : step a t (AEntryEnd m) = Some a' -> exists x, expiry_of a m = Some x /\ (x <= t)%Z /\ expiry_of a' m = None /\ forall q, q <> m -> as_ns a' !! q = as_ns a !! q.
  Proof using.
    unfold asf_step. destruct (t <? as_now a)%Z; [done|]. simpl. unfold expiry_of. destruct (as_ns a !! m) as [x|] eqn:E; [|done]. destruct (Z.leb_spec (ni_expiry x) t); [|done]. intros [= <-].
    exists (ni_expiry x). split; [done|]. split; [done|]. simpl. split; [by rewrite lookup_delete|]. intros q Hq. by rewrite lookup_delete_ne.
  Qed.
  Lemma face_end_step a t m g a' q : step a t (AFaceEnd m g) = Some a' -> expiry_of a' q = expiry_of a q.
  Proof using.
    unfold asf_step. destruct (t <? as_now a)%Z; [done|]. simpl. destruct (as_ns a !! m) as [x|] eqn:E; [|done]. destruct (face_info m g _) as [fi|]; [|done]. destruct (_ <=? t)%Z; [|done]. intros [= <-].
    unfold expiry_of. simpl. destruct (decide (q = m)) as [->|Hq]; [by rewrite lookup_insert, E|by rewrite lookup_insert_ne].
  Qed.
  Lemma expiry_step a t e a' m : step a t e = Some a' ->
    (uses a e m -> prolonged a a' t m) /\
    (e = AEntryEnd m -> exists x, expiry_of a m = Some x /\ (x <= t)%Z /\ expiry_of a' m = None) /\
    (~ uses a e m -> e <> AEntryEnd m -> expiry_of a' m = expiry_of a m \/
       expiry_of a m = None /\ expiry_of a' m = Some (t + 4000000000)%Z /\ mine m = false /\ exists p n, asks e p n /\ (m = p \/ exists k, (length p < k <= length n)%nat /\ m = take (Nat.min k 32) n)).
  Proof using.
    intros H. split; [|split].
    - intros [(p & n & Ha & Hm)|(n & Ha & Hm)].
      + eapply ask_step in H as (m' & H1 & H2 & _); [|done]. by rewrite (accounted_fun mine _ _ _ _ Hm H1).
      + eapply hear_step in H; [|done]. destruct (H) as [H1 _]. by apply H1.
    - intros ->. apply end_step in H as (x & H1 & H2 & H3 & _). by exists x.
    - intros Hu He. assert (Hc : (exists p n, asks e p n) \/ (exists n, hears a e n) \/ (exists q, e = AEntryEnd q) \/ (exists q g, e = AFaceEnd q g)).
      { destruct e as [p n g|p n g sent|p n r|p n|n d g rtt|n g|q g|q g|q|j].
        - left. exists p, n. left. by exists g.
        - left. exists p, n. right. left. by exists g, sent.
        - left. exists p, n. right. right. left. by exists r.
        - left. exists p, n. right. right. by right.
        - right. left. exists n. left. by exists d, g, rtt.
        - right. left. exists n. right. left. by exists g.
        - right. left. revert H. unfold asf_step. destruct (t <? as_now a)%Z; [done|]. cbv zeta. change (face_info q g (at_time est t a)) with (face_info q g a). destruct (face_info q g a) as [fi|] eqn:E; [|done].
          destruct (fi_timer fi) as [[d n]|] eqn:E'; [|done]. intros _. exists n. right. right. left. by exists q, g, fi, d.
        - right. right. right. by exists q, g.
        - right. right. left. by exists q.
        - right. left. revert H. unfold asf_step. destruct (t <? as_now a)%Z; [done|]. cbv zeta. change (as_probes (at_time est t a)) with (as_probes a). destruct (as_probes a !! j) as [[d n]|] eqn:E; [|done].
          intros _. exists n. right. right. right. by exists j, d. }
      destruct Hc as [(p & n & Ha)|[(n & Ha)|[(q & ->)|(q & g & ->)]]].
      + eapply ask_step in H as (m' & H1 & _ & H3); [|done]. assert (Hne : m <> m') by (intros ->; apply Hu; left; by exists p, n). destruct (H3 m Hne) as [?|(K1 & K2 & K3 & K4)]; [by left|]. right. split; [done|]. split; [done|]. split; [done|]. by exists p, n.
      + left. eapply hear_step in H; [|done]. destruct (H) as [_ H1]. apply H1. intros Hl. apply Hu. right. by exists n.
      + left. apply end_step in H as (x & _ & _ & _ & H4). unfold expiry_of. rewrite H4; [done|]. congruence.
      + left. by eapply face_end_step.
  Qed.
End exp.
