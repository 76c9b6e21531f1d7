(** From the history of a face to what ASF knows. *)
From stdpp Require Import gmap.
From Verif Require Import Lib Name_Model Name_Proof Packet_Model Nt_Model Tree_Model Tab_Model Tab_Spec Fw_Model St_Model Asf_Model Asf_Spec Asf_Meas.

Lemma in_a_row_snoc h k : in_a_row h k -> in_a_row (h ++ [HTimeout]) (S k).
Proof. intros (h1 & -> & H). exists h1. split; [|done]. rewrite <- app_assoc. f_equal. change [HTimeout] with (replicate 1 HTimeout). rewrite <- replicate_add. f_equal. lia. Qed.
Lemma in_a_row_other h x : x <> HTimeout -> in_a_row (h ++ [x]) 0.
Proof. intros H. exists (h ++ [x]). split; [by rewrite app_nil_r|]. rewrite last_snoc. congruence. Qed.
Lemma in_a_row_fun h k k' : in_a_row h k -> in_a_row h k' -> k = k'.
Proof.
  assert (Hle : forall k k' (h1 h2 : list hit), h1 ++ replicate k HTimeout = h2 ++ replicate k' HTimeout -> last h2 <> Some HTimeout -> k <= k').
  { intros j j' h1 h2. revert j' h2. induction j as [|j IH]; intros j' h2 E Hl; [lia|]. destruct j' as [|j'].
    - exfalso. rewrite app_nil_r in E. apply Hl. rewrite <- E. replace (S j) with (j + 1) by lia. rewrite replicate_add, app_assoc. apply last_snoc.
    - replace (S j) with (j + 1) in E by lia. replace (S j') with (j' + 1) in E by lia. rewrite !replicate_add, !app_assoc in E. apply app_inj_2 in E as [E _]; [|done]. apply IH in E; [lia|done]. }
  intros (h1 & -> & H1) (h2 & E & H2). pose proof (Hle _ _ _ _ E H2). symmetry in E. pose proof (Hle _ _ _ _ E H1). lia.
Qed.
Lemma in_a_row_ex h : exists k, in_a_row h k.
Proof.
  induction h as [|x h IH] using rev_ind; [exists 0, []; done|]. destruct IH as [k Hk]. destruct x.
  - exists 0. by apply in_a_row_other.
  - exists (S k). by apply in_a_row_snoc.
  - exists 0. by apply in_a_row_other.
Qed.

(** what [h] makes of a face *)
Definition stands (max : nat) (h : list hit) (rtt : Z) : Prop :=
  (out_of_use max h /\ rtt = -2)%Z \/ in_use max h rtt \/ (never_used max h /\ rtt = -1)%Z.

Lemma stands_struck max h x rtt : struck max h x -> ~ measured x -> stands max h rtt -> stands max (h ++ [x]) (-2).
Proof. intros Hs Hm _. left. split; [|done]. exists h, x, []. split; [done|]. split; [done|constructor]. Qed.
Lemma stands_data max h r rtt : stands max h rtt -> stands max (h ++ [HData (Some r)]) r.
Proof. intros _. right. left. exists h, []. split; [done|]. split; [constructor|]. intros h3 x h4 E. by destruct h3. Qed.
Lemma snoc_split {A} (l h3 h4 : list A) y x : l ++ [y] = h3 ++ x :: h4 -> (h4 = [] /\ h3 = l /\ x = y) \/ exists h5, h4 = h5 ++ [y] /\ l = h3 ++ x :: h5.
Proof.
  intros E. destruct h4 as [|z h4 _] using rev_ind.
  - left. apply app_inj_2 in E as [-> E]; [|done]. by injection E as ->.
  - right. rewrite app_comm_cons, app_assoc in E. apply app_inj_2 in E as [-> E]; [|done]. injection E as ->. by exists h4.
Qed.
Lemma stands_nothing max h x rtt : ~ struck max h x -> ~ measured x -> stands max h rtt -> stands max (h ++ [x]) rtt.
Proof.
  intros Hs Hm [[(h1 & y & h2 & -> & A & B) ->]|[(h1 & h2 & -> & B & C)|[[B C] ->]]].
  - left. split; [|done]. exists h1, y, (h2 ++ [x]). split; [by rewrite <- app_assoc|]. split; [done|]. apply Forall_app. split; [done|by constructor].
  - right. left. exists h1, (h2 ++ [x]). split; [by rewrite <- app_assoc|]. split; [apply Forall_app; split; [done|by constructor]|].
    intros h3 z h4 E. apply snoc_split in E as [(-> & -> & ->)|(h5 & -> & ->)]; [done|]. by eapply C.
  - right. right. split; [|done]. split; [apply Forall_app; split; [done|by constructor]|]. intros h3 z h4 E. apply snoc_split in E as [(-> & -> & ->)|(h5 & -> & ->)]; [done|]. by eapply C.
Qed.
Lemma mod_step M n k : (0 < M)%nat -> n = (k mod M)%nat -> (S n < M -> S k mod M = S n)%nat /\ (~ S n < M -> S k mod M = 0)%nat.
Proof.
  intros HM ->. pose proof (Nat.mod_upper_bound k M ltac:(lia)) as Hb. pose proof (Nat.div_mod k M ltac:(lia)) as Hk. split; intros H.
  - symmetry. apply (Nat.mod_unique (S k) M (k / M)); lia.
  - symmetry. apply (Nat.mod_unique (S k) M (S (k / M))); lia.
Qed.

Section hist.
  Variable est : Type.
  Variable est_new : est.
  Variable est_add : est -> Z -> est.
  Variable est_rto : est -> Z.
  Variable mine : name -> bool.
  Variable max_timeouts : nat.
  Variable life probing_interval : Z.
  Notation asf := (asf est).
  Notation step := (asf_step est est_new est_add est_rto mine max_timeouts life probing_interval).
  Notation run := (asf_run est est_new est_add est_rto mine max_timeouts life probing_interval).
  Notation upd_data := (upd_data est est_add life).
  Notation upd_strike := (upd_strike est max_timeouts life).

  Definition sums (h : list hit) (fi : finfo est) : Prop :=
    (exists k, in_a_row h k /\ fi_n fi = (k mod Nat.max 1 max_timeouts)%nat) /\
    fi_est fi = foldl est_add est_new (rtts h) /\ stands max_timeouts h (fi_rtt fi).
  Lemma cancel_kept n (fi : finfo est) : fi_est (cancel_timeout est n fi) = fi_est fi /\ fi_rtt (cancel_timeout est n fi) = fi_rtt fi /\ fi_n (cancel_timeout est n fi) = fi_n fi.
  Proof using. unfold cancel_timeout. by destruct (name_prefixb _ _). Qed.
  Lemma schedule_kept t n (fi : finfo est) : fi_est (schedule_timeout est est_rto t n fi) = fi_est fi /\ fi_rtt (schedule_timeout est est_rto t n fi) = fi_rtt fi /\ fi_n (schedule_timeout est est_rto t n fi) = fi_n fi.
  Proof using. unfold schedule_timeout. by destruct (fi_timer fi) as [[? ?]|]. Qed.
  Lemma sums_same h (fi fi' : finfo est) : fi_est fi' = fi_est fi /\ fi_rtt fi' = fi_rtt fi /\ fi_n fi' = fi_n fi -> sums h fi -> sums h fi'.
  Proof using. intros (A & B & C) H. unfold sums. by rewrite A, B, C. Qed.
  Lemma sums_new t : sums [] (new_face est est_new life t).
  Proof using.
    clear mine probing_interval est_rto. split; [exists 0; split; [by exists []|]; simpl fi_n; by rewrite Nat.mod_0_l by lia|]. split; [done|]. right. right. split; [|done]. split; [constructor|]. intros h3 x h4 E. by destruct h3.
  Qed.
  Lemma sums_data t d rtt h fi : sums h fi -> sums (h ++ [HData rtt]) (upd_data t d rtt fi).
  Proof using.
    clear mine probing_interval est_rto. intros (_ & B & C). unfold Asf_Meas.upd_data. set (fi1 := match rtt with Some r => record_rtt est est_add r fi | None => fi end). destruct (cancel_kept d (extend_face est life t fi1)) as (E1 & E2 & E3).
    split; [|split].
    - exists 0. split; [by apply in_a_row_other|]. simpl. by rewrite Nat.mod_0_l by lia.
    - simpl. rewrite E1. simpl. unfold rtts. rewrite omap_app, foldl_app. fold (rtts h). rewrite <- B. unfold fi1. by destruct rtt.
    - simpl. rewrite E2. simpl. unfold fi1. destruct rtt as [r|]; simpl; [by eapply stands_data|]. apply stands_nothing; [|by intros [? ?]|done]. intros [?|[? _]]; done.
  Qed.
  Lemma sums_strike t n (nack : bool) h fi : sums h fi -> sums (h ++ [if nack then HNack else HTimeout]) (upd_strike t n nack fi).
  Proof using.
    clear mine probing_interval est_rto. intros ((k & Hk & A) & B & C). unfold Asf_Meas.upd_strike. set (M := Nat.max 1 max_timeouts) in *. destruct (mod_step M (fi_n fi) k ltac:(lia) A) as [M1 M2].
    assert (Hr : rtts (h ++ [if nack then HNack else HTimeout]) = rtts h) by (unfold rtts; rewrite omap_app; destruct nack; simpl; by rewrite app_nil_r).
    assert (Hnm : ~ measured (if nack then HNack else HTimeout)) by (destruct nack; by intros [? ?]).
    destruct (Nat.ltb_spec (S (fi_n fi)) max_timeouts) as [Hlt|Hge]; destruct nack; cbn [andb negb].
    2: { destruct (cancel_kept n (extend_face est life t (set_n est (S (fi_n fi)) fi))) as (E1 & E2 & E3). unfold sums. rewrite E1, E2, E3. simpl. split; [|split].
         - exists (S k). split; [by apply in_a_row_snoc|]. fold M. rewrite M1; [done|lia].
         - by rewrite Hr.
         - apply stands_nothing; [|done|done]. intros [?|(_ & k' & Hk' & Hz)]; [done|]. rewrite (in_a_row_fun _ _ _ Hk' (in_a_row_snoc _ _ Hk)) in Hz. fold M in Hz. rewrite M1 in Hz by lia. done. }
    all: unfold record_timeout, sums; cbn [set_n fi_est fi_rtt fi_n fi_last fi_life fi_timer]; match goal with |- context [cancel_timeout _ ?q ?f] => destruct (cancel_kept q f) as (E1 & E2 & E3); rewrite E1, E2 end;
      cbn [set_n fi_est fi_rtt fi_n]; (split; [|split; [by rewrite Hr|]]).
    - exists 0. split; [by apply in_a_row_other|]. by rewrite Nat.mod_0_l by lia.
    - eapply stands_struck; [|done|exact C]. by left.
    - exists 0. split; [by apply in_a_row_other|]. by rewrite Nat.mod_0_l by lia.
    - eapply stands_struck; [|done|exact C]. by left.
    - exists (S k). split; [by apply in_a_row_snoc|]. fold M. rewrite M2; [done|lia].
    - eapply stands_struck; [|done|exact C]. right. split; [done|]. exists (S k). split; [by apply in_a_row_snoc|]. fold M. apply M2. lia.
  Qed.

  Definition fits (o : option (list hit)) (f : option (finfo est)) : Prop :=
    match o, f with
    | None, None => True
    | Some h, Some fi => sums h fi
    | _, _ => False
    end.
  Lemma step_time a t e a' : step a t e = Some a' -> (as_now a <= t)%Z.
  Proof using. clear. unfold asf_step. destruct (Z.ltb_spec t (as_now a)); [done|]. intros _. done. Qed.

  (** events that are about nothing in particular *)
  Lemma quiet_story a e m g o : (forall p n g s, e <> ASend p n g s) -> (forall n d g r, e <> AData n d g r) -> (forall n g, e <> ANack n g) -> (forall m g, e <> ATimeout m g) ->
    (forall m g, e <> AFaceEnd m g) -> (forall m, e <> AEntryEnd m) -> next_story mine (a : asf) e m g o o.
  Proof using.
    clear. intros H1 H2 H3 H4 H5 H6. split; [|split; [|split]].
    - intros (p & n & s & -> & _). by destruct (H1 p n g s).
    - intros x [(n & d & r & -> & _)|[(n & -> & _)|(m0 & fi & d & n & -> & _)]]; exfalso; [by eapply H2|by eapply H3|by eapply H4].
    - intros [->| ->]; exfalso; [by eapply H5|by eapply H6].
    - done.
  Qed.
  Lemma same_fits a a1 m g o : same_info est a a1 -> fits o (face_info m g a) -> fits o (face_info m g a1).
  Proof using. intros H. by rewrite (si_face _ _ _ H). Qed.

  Lemma step_story a t e a' m g o : step a t e = Some a' -> fits o (face_info m g a) -> exists o', next_story mine a e m g o o' /\ fits o' (face_info m g a').
  Proof using.
    clear. intros H Ho. pose proof (step_time _ _ _ _ H) as Ht. unfold asf_step in H. destruct (Z.ltb_spec t (as_now a)); [lia|]. clear Ht. set (a1 := at_time est t a) in *.
    change (face_info m g a) with (face_info m g a1) in Ho. destruct e as [p n g0|p n g0 sent|p n r|p n|n d g0 rtt|n g0|m0 g0|m0 g0|m0|j].
    - exists o. split; [by apply quiet_story|]. unfold get_face_info in H. pose proof (get_or_create_spec est mine life p n a1) as G. destruct (get_or_create_ns est mine life p n a1) as [[a2 m1]|]; [|done]. injection H as <-. by eapply same_fits; [apply G|].
    - pose proof (after_send_spec est est_new est_rto mine life p n g0 sent a1 a' m g H) as (A & B & _). unfold after_send in H. pose proof (get_or_create_spec est mine life p n a1) as G. destruct (get_or_create_ns est mine life p n a1) as [[a2 m1]|]; [|done]. destruct G as (_ & _ & Hacc). clear H.
      destruct (decide (m = m1 /\ g = g0)) as [[-> ->]|Hne].
      + exists (Some (default [] o)). split.
        * split; [done|]. split; [by intros x [(? & ? & ? & ? & _)|[(? & ? & _)|(? & ? & ? & ? & ? & _)]]|]. split; [by intros [?|?]|]. intros Hns _ _. exfalso. apply Hns. by exists p, n, sent.
        * rewrite A by done. eapply sums_same; [apply schedule_kept|]. unfold fits in Ho. destruct o as [h|], (face_info m1 g0 a1) as [fi|]; try done. eapply sums_same; [|apply (sums_new t)]. done.
      + assert (Hno : ~ (accounted_in mine p n m /\ g = g0)) by (intros [Hx ->]; apply Hne; by rewrite (accounted_fun _ _ _ _ _ Hx Hacc)).
        exists o. split; [|by rewrite B]. split; [|split; [|split; [by intros [?|?]|done]]].
        * intros (p' & n' & s' & E & Hx). injection E as <- <- <- <-. by destruct Hno.
        * by intros x [(? & ? & ? & ? & _)|[(? & ? & _)|(? & ? & ? & ? & ? & _)]].
    - exists o. split; [by apply quiet_story|]. unfold probing_needed in H. pose proof (get_or_create_spec est mine life p n a1) as G. destruct (get_or_create_ns est mine life p n a1) as [[a2 m1]|]; [|done]. destruct G as (G & _ & _).
      destruct (as_ns a2 !! m1) as [x|] eqn:Ex; [|done]. injection H as <-. destruct (ni_first x); [by eapply same_fits|]. unfold set_first. simpl. rewrite Ex. unfold face_info. simpl.
      eapply same_fits in Ho; [|exact G]. unfold face_info in Ho. destruct (decide (m = m1)) as [->|Hm]; [rewrite lookup_insert; by rewrite Ex in Ho|by rewrite lookup_insert_ne].
    - exists o. split; [by apply quiet_story|]. unfold after_probe in H. pose proof (get_or_create_spec est mine life p n a1) as G. destruct (get_or_create_ns est mine life p n a1) as [[a2 m1]|]; [|done]. destruct G as (G & _ & _).
      injection H as <-. eapply same_fits in Ho; [|exact G]. unfold set_due. destruct (as_ns a2 !! m1) as [x|] eqn:Ex; [|exact Ho]. unfold face_info in *. simpl. destruct (decide (m = m1)) as [->|Hm]; [rewrite lookup_insert; by rewrite Ex in Ho|by rewrite lookup_insert_ne].
    - injection H as <-. pose proof (on_data_spec est est_add mine life n d g0 rtt a1 m g) as (A & B & _). cbv zeta in A, B. change (looked_up_in mine a1 n m) with (looked_up_in mine a n m) in A, B.
      assert (Hdec : (looked_up_in mine a n m /\ g = g0) \/ ~ (looked_up_in mine a n m /\ g = g0)).
      { pose proof (get_ns_spec est mine life n a) as G. destruct (get_ns est mine life n a) as [a2 [m1|]]; [|right; intros [Hx _]; by apply G in Hx]. destruct G as (_ & _ & G). destruct (decide (m = m1 /\ g = g0)) as [[-> ->]|Hne]; [by left|].
        right. intros [Hx ->]. apply Hne. by rewrite (looked_up_fun _ _ _ _ _ _ Hx G). }
      destruct Hdec as [[Hl ->]|Hno].
      + exists (option_map (fun h => h ++ [HData rtt]) o). split.
        * split; [by intros (? & ? & ? & ? & _)|]. split; [|split; [by intros [?|?]|]].
          -- intros x [(n' & d' & r' & E & Hx & ->)|[(? & ? & _)|(? & ? & ? & ? & ? & _)]]; [|done|done]. by injection E as <- <- <-.
          -- intros _ Hns _. exfalso. eapply Hns. left. by exists n, d, rtt.
        * rewrite A by done. destruct o as [h|], (face_info m g0 a1) as [fi|]; try done. by apply sums_data.
      + exists o. split; [|by rewrite B]. split; [by intros (? & ? & ? & ? & _)|]. split; [|split; [by intros [?|?]|done]].
        intros x [(n' & d' & r' & E & Hx & ->)|[(? & ? & _)|(? & ? & ? & ? & ? & _)]]; [|done|done]. injection E as <- <- <- <-. by destruct Hno.
    - injection H as <-. pose proof (on_strike_spec est mine max_timeouts life n g0 true a1 m g) as (A & B & _). cbv zeta in A, B. change (looked_up_in mine a1 n m) with (looked_up_in mine a n m) in A, B.
      assert (Hdec : (looked_up_in mine a n m /\ g = g0) \/ ~ (looked_up_in mine a n m /\ g = g0)).
      { pose proof (get_ns_spec est mine life n a) as G. destruct (get_ns est mine life n a) as [a2 [m1|]]; [|right; intros [Hx _]; by apply G in Hx]. destruct G as (_ & _ & G). destruct (decide (m = m1 /\ g = g0)) as [[-> ->]|Hne]; [by left|].
        right. intros [Hx ->]. apply Hne. by rewrite (looked_up_fun _ _ _ _ _ _ Hx G). }
      destruct Hdec as [[Hl ->]|Hno].
      + exists (option_map (fun h => h ++ [HNack]) o). split.
        * split; [by intros (? & ? & ? & ? & _)|]. split; [|split; [by intros [?|?]|]].
          -- intros x [(? & ? & ? & ? & _)|[(n' & E & Hx & ->)|(? & ? & ? & ? & ? & _)]]; [done| |done]. done.
          -- intros _ Hns _. exfalso. eapply Hns. right. left. by exists n.
        * rewrite A by done. destruct o as [h|], (face_info m g0 a1) as [fi|]; try done. by apply (sums_strike _ _ true).
      + exists o. split; [|by rewrite B]. split; [by intros (? & ? & ? & ? & _)|]. split; [|split; [by intros [?|?]|done]].
        intros x [(? & ? & ? & ? & _)|[(n' & E & Hx & ->)|(? & ? & ? & ? & ? & _)]]; [done| |done]. injection E as <- <-. by destruct Hno.
    - destruct (face_info m0 g0 a1) as [fi|] eqn:Ef; [|done]. destruct (fi_timer fi) as [[d n]|] eqn:Et; [|done]. destruct (d <=? t)%Z; [|done]. injection H as <-.
      set (a2 := set_face est m0 g0 _ a1). pose proof (on_strike_spec est mine max_timeouts life n g0 false a2 m g) as (A & B & _). cbv zeta in A, B.
      assert (Hd : is_Some (as_ns a1 !! m0)) by (by eapply face_info_dom).
      assert (Hl2 : looked_up_in mine a2 n m <-> looked_up_in mine a n m).
      { assert (Hiff : forall q, is_Some (as_ns a2 !! q) <-> is_Some (as_ns a !! q)) by (intros q; apply (set_face_dom est m0 g0 _ a1 q)). unfold looked_up_in, longest_defined. rewrite Hiff. split; intros [(P & Q & R) S]; (split; [|done]; split; [done|]; split; [done|]); intros q Hq Hs; apply R; try done; by apply Hiff. }
      rewrite Hl2 in A, B.
      assert (Ho2 : fits o (face_info m g a2)).
      { unfold a2. rewrite set_face_spec by done. case_decide as Hmg; [|done]. destruct Hmg as [-> ->]. rewrite Ef in Ho. destruct o as [h|]; [|done]. eapply sums_same; [|exact Ho]. done. }
      assert (Hhit : forall x, hits_in mine a (ATimeout m0 g0) m g x <-> looked_up_in mine a n m /\ g = g0 /\ x = HTimeout).
      { intros x. split.
        - intros [(? & ? & ? & ? & _)|[(? & ? & _)|(m' & fi' & d' & n' & E & Hf' & Ht' & Hx & ->)]]; [done|done|]. injection E as <- <-. change (face_info m0 g0 a) with (face_info m0 g0 a1) in Hf'. rewrite Ef in Hf'. injection Hf' as <-. rewrite Et in Ht'. by injection Ht' as <- <-.
        - intros (Hx & -> & ->). right. right. by exists m0, fi, d, n. }
      assert (Hdec : (looked_up_in mine a n m /\ g = g0) \/ ~ (looked_up_in mine a n m /\ g = g0)).
      { pose proof (get_ns_spec est mine life n a) as G. destruct (get_ns est mine life n a) as [a3 [m1|]]; [|right; intros [Hx _]; by apply G in Hx]. destruct G as (_ & _ & G). destruct (decide (m = m1 /\ g = g0)) as [[-> ->]|Hne]; [by left|].
        right. intros [Hx ->]. apply Hne. by rewrite (looked_up_fun _ _ _ _ _ _ Hx G). }
      destruct Hdec as [[Hl ->]|Hno].
      + exists (option_map (fun h => h ++ [HTimeout]) o). split.
        * split; [by intros (? & ? & ? & ? & _)|]. split; [|split; [by intros [?|?]|]].
          -- intros x (_ & _ & ->)%Hhit. done.
          -- intros _ Hns _. exfalso. eapply Hns, Hhit. done.
        * rewrite A by done. destruct o as [h|], (face_info m g0 a2) as [fi2|]; try done. by apply (sums_strike _ _ false).
      + exists o. split; [|by rewrite B]. split; [by intros (? & ? & ? & ? & _)|]. split; [|split; [by intros [?|?]|done]]. intros x (Hx & Hy & _)%Hhit. by destruct Hno.
    - destruct (as_ns a1 !! m0) as [x|] eqn:Ex; [|done]. destruct (face_info m0 g0 a1) as [fi|] eqn:Ef; [|done]. destruct (fi_life fi <=? t)%Z; [|done]. injection H as <-.
      assert (Hf : face_info m g (set_ns est m0 (set_faces est (delete g0 (ni_faces x)) x) a1) = if decide (m = m0 /\ g = g0) then None else face_info m g a1).
      { unfold face_info. simpl. destruct (decide (m = m0)) as [->|Hm].
        - rewrite lookup_insert. simpl. change (as_ns a !! m0) with (as_ns a1 !! m0). rewrite Ex. destruct (decide (g = g0)) as [->|Hg]; [by rewrite lookup_delete, decide_True|]. rewrite lookup_delete_ne by done. by rewrite decide_False by tauto.
        - rewrite lookup_insert_ne by done. by rewrite decide_False by tauto. }
      rewrite Hf. case_decide as Hmg.
      + destruct Hmg as [-> ->]. exists None. split; [|done]. split; [by intros (? & ? & ? & ? & _)|]. split; [by intros y [(? & ? & ? & ? & _)|[(? & ? & _)|(? & ? & ? & ? & ? & _)]]|]. split; [done|]. intros _ _ He. exfalso. apply He. by left.
      + exists o. split; [|done]. split; [by intros (? & ? & ? & ? & _)|]. split; [by intros y [(? & ? & ? & ? & _)|[(? & ? & _)|(? & ? & ? & ? & ? & _)]]|]. split; [|done]. intros [E|E]; [|done]. injection E as -> ->. by destruct Hmg.
    - destruct (as_ns a1 !! m0) as [x|] eqn:Ex; [|done]. destruct (ni_expiry x <=? t)%Z; [|done]. injection H as <-.
      destruct (decide (m = m0)) as [->|Hm].
      + exists None. split; [|unfold face_info; simpl; by rewrite lookup_delete]. split; [by intros (? & ? & ? & ? & _)|]. split; [by intros y [(? & ? & ? & ? & _)|[(? & ? & _)|(? & ? & ? & ? & ? & _)]]|]. split; [done|]. intros _ _ He. exfalso. apply He. by right.
      + exists o. split; [|unfold face_info in *; simpl; by rewrite lookup_delete_ne]. split; [by intros (? & ? & ? & ? & _)|]. split; [by intros y [(? & ? & ? & ? & _)|[(? & ? & _)|(? & ? & ? & ? & ? & _)]]|]. split; [|done]. intros [E|E]; [done|]. by injection E as ->.
    - exists o. split; [by apply quiet_story|]. destruct (as_probes a1 !! j) as [[d p]|]; [|done]. destruct (d <=? t)%Z; [|done]. set (a2 := Asf t (as_ns a1) _) in H. pose proof (get_ns_spec est mine life p a2) as G. destruct (get_ns est mine life p a2) as [a3 [m1|]]; injection H as <-.
      + destruct G as (G & _ & _). change (face_info m g a1) with (face_info m g a2) in Ho. eapply same_fits in Ho; [|exact G]. unfold set_due. destruct (as_ns a3 !! m1) as [x|] eqn:Ex; [|exact Ho]. unfold face_info in *. simpl. destruct (decide (m = m1)) as [->|Hm]; [rewrite lookup_insert; by rewrite Ex in Ho|by rewrite lookup_insert_ne].
      + destruct G as [-> _]. exact Ho.
  Qed.
  Lemma run_snoc a l t e : run a (l ++ [(t, e)]) = match run a l with Some a1 => step a1 t e | None => None end.
  Proof using.
    clear. revert a. induction l as [|[t0 e0] l IH]; intros a; cbn [asf_run app]; [by destruct (step a t e)|]. destruct (step a t0 e0); [apply IH|done].
  Qed.
  Lemma run_story l a m g : run asf_init l = Some a -> exists o, story mine step m g l a o /\ fits o (face_info m g a).
  Proof using.
    revert a. induction l as [|[t e] l IH] using rev_ind; intros a H.
    - injection H as <-. exists None. split; [constructor|]. unfold face_info. simpl. by rewrite lookup_empty.
    - rewrite run_snoc in H. destruct (run asf_init l) as [a1|] eqn:E; [|done]. destruct (IH a1 eq_refl) as (o & Hs & Hf). destruct (step_story _ _ _ _ m g o H Hf) as (o' & Hn & Hf'). exists o'. split; [by econstructor|done].
  Qed.
End hist.
