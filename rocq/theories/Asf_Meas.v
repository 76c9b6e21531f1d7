(** What ASF knows, step by step. *)
From stdpp Require Import gmap.
From Verif Require Import Lib Name_Model Name_Proof Packet_Model Nt_Model Tree_Model Tab_Model Tab_Spec Fw_Model St_Model Asf_Model Asf_Spec.

Lemma prefix_of_take_le {A} (n : list A) i j : (i <= j)%nat -> take i n `prefix_of` take j n.
Proof. intros H. exists (drop i (take j n)). rewrite <- (take_drop i (take j n)) at 1. f_equal. by rewrite take_take, Nat.min_l. Qed.
Lemma prefix_len_eq {A} (n p q : list A) : p `prefix_of` n -> q `prefix_of` n -> length p = length q -> p = q.
Proof. intros [x ->] [y H] E. by apply app_inj_1 in H as [? _]. Qed.

Section meas.
  Variable est : Type.
  Variable est_new : est.
  Variable est_add : est -> Z -> est.
  Variable est_rto : est -> Z.
  Variable mine : name -> bool.
  Variable max_timeouts : nat.
  Variable life probing_interval : Z.
  Notation asf := (asf est).
  Notation get_ns := (get_ns est mine life).
  Notation get_or_create_ns := (get_or_create_ns est mine life).
  Notation set_face := (set_face est).
  Notation step := (asf_step est est_new est_add est_rto mine max_timeouts life probing_interval).
  Notation run := (asf_run est est_new est_add est_rto mine max_timeouts life probing_interval).

  Definition due_of (a : asf) (m : name) : bool := match as_ns a !! m with Some x => ni_due x | None => false end.
  Record same_info (a a1 : asf) : Prop := {
    si_face : forall m g, face_info m g a1 = face_info m g a;
    si_dom : forall m, is_Some (as_ns a !! m) -> is_Some (as_ns a1 !! m);
    si_now : as_now a1 = as_now a;
    si_due : forall m, due_of a1 m = due_of a m;
    si_probes : as_probes a1 = as_probes a;
  }.
  Lemma same_refl a : same_info a a.
  Proof using. by split. Qed.
  Lemma same_trans a b c : same_info a b -> same_info b c -> same_info a c.
  Proof using.
    intros [A1 A2 A3 A4 A5] [B1 B2 B3 B4 B5]. split; [intros; by rewrite B1, A1|auto|congruence|intros; by rewrite B4, A4|congruence].
  Qed.
  Lemma meas_of_same n a : same_info a (meas_of est n a) /\ is_Some (as_ns (meas_of est n a) !! n).
  Proof using.
    unfold meas_of. destruct (as_ns a !! n) as [x|] eqn:E; [split; [apply same_refl|by rewrite E]|]. split; [|by simpl; rewrite lookup_insert]. split; simpl.
    - intros m g. unfold face_info. simpl. destruct (decide (m = n)) as [->|Hn]; [by rewrite lookup_insert, E; simpl; rewrite lookup_empty|by rewrite lookup_insert_ne].
    - intros m Hm. destruct (decide (m = n)) as [->|Hn]; [by rewrite lookup_insert|by rewrite lookup_insert_ne].
    - done.
    - intros m. unfold due_of. simpl. destruct (decide (m = n)) as [->|Hn]; [by rewrite lookup_insert, E|by rewrite lookup_insert_ne].
    - done.
  Qed.
  Lemma extend_same m0 a : same_info a (extend_ns est life m0 a).
  Proof using.
    unfold extend_ns. destruct (as_ns a !! m0) as [x|] eqn:E; [|apply same_refl]. split; simpl.
    - intros m g. unfold face_info. simpl. destruct (decide (m = m0)) as [->|Hn]; [by rewrite lookup_insert, E|by rewrite lookup_insert_ne].
    - intros m Hm. destruct (decide (m = m0)) as [->|Hn]; [by rewrite lookup_insert|by rewrite lookup_insert_ne].
    - done.
    - intros m. unfold due_of. simpl. destruct (decide (m = m0)) as [->|Hn]; [by rewrite lookup_insert, E|by rewrite lookup_insert_ne].
    - done.
  Qed.
  (** the first name of a list the strategy is chosen for *)
  Lemma first_mine_spec l a : match first_mine est mine l a with
    | Some (a1, m) => same_info a a1 /\ is_Some (as_ns a1 !! m) /\ exists l1 l2, l = l1 ++ m :: l2 /\ mine m = true /\ Forall (fun q => mine q = false) l1
    | None => Forall (fun q => mine q = false) l
    end.
  Proof using.
    revert a. induction l as [|n l IH]; intros a; simpl; [constructor|]. destruct (meas_of_same n a) as [A B]. destruct (mine n) eqn:E.
    - split; [done|]. split; [done|]. exists [], l. split; [done|]. split; [done|constructor].
    - specialize (IH (meas_of est n a)). destruct (first_mine est mine l (meas_of est n a)) as [[a1 m]|]; [|by constructor].
      destruct IH as (C & D & l1 & l2 & -> & F & G). split; [by eapply same_trans|]. split; [done|]. exists (n :: l1), l2. split; [done|]. split; [done|]. by constructor.
  Qed.
  Lemma candidates_first p n l1 m l2 : candidates p n = l1 ++ m :: l2 -> mine m = true -> Forall (fun q => mine q = false) l1 -> accounted_in mine p n m.
  Proof using. clear est_new est_add est_rto max_timeouts probing_interval life est.
    unfold candidates. intros E Hm Hl. destruct l1 as [|q l1]; simpl in E; [injection E as <- _; by left|]. injection E as <- E. apply Forall_cons in Hl as [Hp Hl]. right. split; [done|]. split; [done|].
    assert (H : forall j, (map (fun len => take (Nat.min len DEPTH) n) (seq (S (length p)) (length n - length p)) : list name) !! j = if decide (j < length n - length p)%nat then Some (take (Nat.min (S (length p) + j) 32) n) else None).
    { intros j. rewrite list_lookup_fmap. case_decide; [by rewrite lookup_seq_lt|by rewrite lookup_seq_ge by lia]. }
    pose proof (H (length l1)) as H0. rewrite E, lookup_app_r, Nat.sub_diag in H0 by lia. simpl in H0. case_decide as Hlt; [|done]. injection H0 as H0.
    exists (S (length p) + length l1)%nat. split; [lia|]. split; [done|]. intros k' Hk. pose proof (H (k' - S (length p))%nat) as H1. rewrite E, lookup_app_l in H1 by lia. rewrite decide_True in H1 by lia.
    rewrite Forall_forall in Hl. apply Hl. apply elem_of_list_lookup. eexists. rewrite H1. do 3 f_equal. lia.
  Qed.
  Lemma candidates_none p n : Forall (fun q => mine q = false) (candidates p n) <-> forall m, ~ accounted_in mine p n m.
  Proof using est. clear est_new est_add est_rto max_timeouts probing_interval.
    split.
    - intros H m [[A ->]|(A & B & k & Hk & -> & _)]; unfold candidates in H; apply Forall_cons in H as [H1 H2]; [congruence|]. rewrite Forall_forall in H2. specialize (H2 (take (Nat.min k 32) n)).
      rewrite H2 in B; [done|]. apply elem_of_list_fmap. exists k. split; [done|]. apply elem_of_seq. lia.
    - intros H. pose proof (first_mine_spec (candidates p n) asf_init) as F. destruct (first_mine est mine (candidates p n) asf_init) as [[a1 m]|]; [|done]. destruct F as (_ & _ & l1 & l2 & A & B & C). exfalso. eapply H, candidates_first; eauto.
  Qed.
  Lemma accounted_fun p n m m' : accounted_in mine p n m -> accounted_in mine p n m' -> m = m'.
  Proof using. clear est_new est_add est_rto max_timeouts probing_interval life est.
    intros [[A ->]|(A & B & k & Hk & -> & Hmin)] [[A' ->]|(A' & B' & k' & Hk' & -> & Hmin')]; [done|congruence|congruence|].
    destruct (Nat.lt_trichotomy k k') as [H|[->|H]]; [|done|]; exfalso; [rewrite (Hmin' k) in B; [done|lia]|rewrite (Hmin k') in B'; [done|lia]].
  Qed.
  Lemma get_or_create_spec p n a : match get_or_create_ns p n a with
    | Some (a1, m) => same_info a a1 /\ is_Some (as_ns a1 !! m) /\ accounted_in mine p n m
    | None => forall m, ~ accounted_in mine p n m
    end.
  Proof using. clear est_new est_add est_rto max_timeouts probing_interval.
    unfold Asf_Model.get_or_create_ns. pose proof (first_mine_spec (candidates p n) a) as F. destruct (first_mine est mine (candidates p n) a) as [[a1 m]|]; [|by apply candidates_none].
    destruct F as (A & B & l1 & l2 & C & D & G). split; [eapply same_trans; [exact A|apply extend_same]|]. split; [by apply (si_dom _ _ (extend_same m a1))|]. by eapply candidates_first.
  Qed.
  Lemma longest_of_spec l n a : (l <= length n)%nat -> match longest_of est l n a with
    | Some m => longest_defined (fun q => as_ns a !! q) (take l n) m
    | None => forall m, m `prefix_of` take l n -> as_ns a !! m = None
    end.
  Proof using. clear est_new est_add est_rto max_timeouts probing_interval life mine.
    induction l as [|l IH]; intros Hl.
    - simpl. destruct (as_ns a !! take 0 n) as [x|] eqn:E.
      + split; [by rewrite take_0|]. rewrite take_0 in *. split; [by rewrite E|]. intros q Hq _. apply prefix_length in Hq. simpl in Hq. done.
      + intros m Hm. rewrite take_0 in *. apply prefix_nil_inv in Hm as ->. done.
    - change (longest_of est (S l) n a) with (match as_ns a !! take (S l) n with Some _ => Some (take (S l) n) | None => longest_of est l n a end).
      destruct (as_ns a !! take (S l) n) as [x|] eqn:E.
      + split; [done|]. split; [by rewrite E|]. intros q Hq _. by apply prefix_length.
      + specialize (IH ltac:(lia)).
        assert (Hstep : forall q, q `prefix_of` take (S l) n -> q = take (S l) n \/ q `prefix_of` take l n).
        { intros q Hq. pose proof (prefix_length _ _ Hq) as Hlen. rewrite take_length in Hlen. destruct (decide (length q = S l)) as [El|El].
          - left. destruct Hq as [z Hz]. assert (z = []) as ->; [|by rewrite app_nil_r in Hz]. apply (f_equal length) in Hz. rewrite app_length, take_length, Nat.min_l in Hz by lia. destruct z as [|? z]; [done|]. cbn [length] in Hz. lia.
          - right. destruct Hq as [z Hz]. exists (drop (length q) (take l n)). assert (Hq' : take (length q) n = q).
            { apply (f_equal (take (length q))) in Hz. rewrite take_app, take_take in Hz. by rewrite Nat.min_l in Hz by lia. }
            rewrite <- (take_drop (length q) (take l n)) at 1. f_equal. rewrite take_take, Nat.min_l by lia. done. }
        destruct (longest_of est l n a) as [m|].
        * destruct IH as (A & B & C). split; [etransitivity; [exact A|apply prefix_of_take_le; lia]|]. split; [done|]. intros q Hq Hd. apply Hstep in Hq as [->|Hq]; [rewrite E in Hd; by destruct Hd|by apply C].
        * intros m Hm. apply Hstep in Hm as [->|Hm]; [done|by apply IH].
  Qed.

  Lemma looked_up_fun (a : asf) n m m' : looked_up_in mine a n m -> looked_up_in mine a n m' -> m = m'.
  Proof using.
    clear est_new est_add est_rto max_timeouts probing_interval life. intros [(A & B & C) _] [(A' & B' & C') _]. apply (prefix_len_eq (take 32 n)); [done|done|]. specialize (C m' A' B'). specialize (C' m A B). lia.
  Qed.
  Lemma get_ns_spec n a : match get_ns n a with
    | (a1, Some m) => same_info a a1 /\ is_Some (as_ns a !! m) /\ looked_up_in mine a n m
    | (a1, None) => a1 = a /\ forall m, ~ looked_up_in mine a n m
    end.
  Proof using.
    clear est_new est_add est_rto max_timeouts probing_interval. unfold Asf_Model.get_ns. pose proof (longest_of_spec (Nat.min (length n) DEPTH) n a ltac:(lia)) as H.
    assert (Ht : take (Nat.min (length n) DEPTH) n = take 32 n).
    { unfold DEPTH. destruct (le_gt_dec (length n) 32); [rewrite Nat.min_l by lia; by rewrite (take_ge n (length n)), (take_ge n 32) by lia|by rewrite Nat.min_r by lia]. }
    rewrite Ht in H. destruct (longest_of est _ n a) as [m|].
    - destruct (mine m) eqn:E; [split; [apply extend_same|]; split; [apply H|done]|]. split; [done|]. intros m' [(A' & B' & C') E']. destruct H as (A & B & C).
      assert (m' = m) as ->; [|congruence]. apply (prefix_len_eq (take 32 n)); [done|done|]. specialize (C m' A' B'). specialize (C' m A B). lia.
    - split; [done|]. intros m [(A & [x B] & C) _]. rewrite H in B; done.
  Qed.
  Lemma set_face_spec m0 g0 fi a m g : is_Some (as_ns a !! m0) -> face_info m g (set_face m0 g0 fi a) = if decide (m = m0 /\ g = g0) then Some fi else face_info m g a.
  Proof using. clear est_new est_add est_rto max_timeouts probing_interval life mine.
    intros [x E]. unfold Asf_Model.set_face, face_info. rewrite E. simpl. destruct (decide (m = m0)) as [->|Hm].
    - rewrite lookup_insert. simpl. rewrite E. destruct (decide (g = g0)) as [->|Hg]; [by rewrite lookup_insert, decide_True|]. rewrite lookup_insert_ne by done. by rewrite decide_False by tauto.
    - rewrite lookup_insert_ne by done. by rewrite decide_False by tauto.
  Qed.
  Lemma set_face_dom m0 g0 fi a m : is_Some (as_ns (set_face m0 g0 fi a) !! m) <-> is_Some (as_ns a !! m).
  Proof using. clear est_new est_add est_rto max_timeouts probing_interval life mine.
    unfold Asf_Model.set_face. destruct (as_ns a !! m0) as [x|] eqn:E; [|done]. simpl. destruct (decide (m = m0)) as [->|Hm]; [rewrite lookup_insert, E; split; by eexists|by rewrite lookup_insert_ne].
  Qed.
  Lemma set_face_due m0 g0 fi a m : due_of (set_face m0 g0 fi a) m = due_of a m.
  Proof using. clear est_new est_add est_rto max_timeouts probing_interval life mine.
    unfold Asf_Model.set_face, due_of. destruct (as_ns a !! m0) as [x|] eqn:E; [|done]. simpl. destruct (decide (m = m0)) as [->|Hm]; [by rewrite lookup_insert, E|by rewrite lookup_insert_ne].
  Qed.
  Lemma face_info_dom m g (a : asf) fi : face_info m g a = Some fi -> is_Some (as_ns a !! m).
  Proof using. clear est_new est_add est_rto max_timeouts probing_interval life mine. unfold face_info. by destruct (as_ns a !! m). Qed.

  (** what an answer, or none, makes of what is known about a face *)
  Definition upd_data (t : Z) (d : name) (rtt : option Z) (fi : finfo est) : finfo est :=
    set_n est 0 (cancel_timeout est d (extend_face est life t (match rtt with Some r => record_rtt est est_add r fi | None => fi end))).
  Definition upd_strike (t : Z) (n : name) (nack : bool) (fi : finfo est) : finfo est :=
    if (S (fi_n fi) <? max_timeouts)%nat && negb nack
    then cancel_timeout est n (extend_face est life t (set_n est (S (fi_n fi)) fi))
    else set_n est 0 (record_timeout est n (set_n est (S (fi_n fi)) fi)).
  Definition no_timer (fi : finfo est) : finfo est := FInfo (fi_est fi) (fi_rtt fi) (fi_last fi) (fi_n fi) (fi_life fi) None.

  Lemma on_data_spec n d g0 rtt a m g :
    let a' := on_data est est_add mine life n d g0 rtt a in
    (looked_up_in mine a n m -> g = g0 -> face_info m g a' = option_map (upd_data (as_now a) d rtt) (face_info m g a)) /\
    (~ (looked_up_in mine a n m /\ g = g0) -> face_info m g a' = face_info m g a) /\
    (forall q, due_of a' q = due_of a q) /\ as_now a' = as_now a /\ as_probes a' = as_probes a.
  Proof using. clear est_new est_rto max_timeouts probing_interval.
    unfold on_data. pose proof (get_ns_spec n a) as H. destruct (get_ns n a) as [a1 [m1|]]; simpl.
    2: { destruct H as [-> H]. split; [intros Hl; by apply H in Hl|done]. }
    destruct H as (S1 & Hd & Hl). pose proof (si_dom _ _ S1 _ Hd) as Hd1. rewrite (si_face _ _ S1). destruct (face_info m1 g0 a) as [fi|] eqn:Ef.
    - rewrite set_face_spec by done. split; [|split; [|split; [|split]]].
      + intros Hl' ->. rewrite (looked_up_fun _ _ _ _ Hl' Hl), decide_True, Ef by done. done.
      + intros Hn. rewrite decide_False; [apply S1|]. intros [-> ->]. by apply Hn.
      + intros q. rewrite set_face_due. apply S1.
      + unfold Asf_Model.set_face. destruct (as_ns a1 !! m1); apply S1.
      + unfold Asf_Model.set_face. destruct (as_ns a1 !! m1); apply S1.
    - split; [|split; [|split; [|split]]]; try apply S1.
      + intros Hl' ->. rewrite (looked_up_fun _ _ _ _ Hl' Hl), Ef. by rewrite (si_face _ _ S1).
      + intros _. apply S1.
  Qed.
  Lemma on_strike_spec n g0 nack a m g :
    let a' := on_timeout_or_nack est mine max_timeouts life n g0 nack a in
    (looked_up_in mine a n m -> g = g0 -> face_info m g a' = option_map (upd_strike (as_now a) n nack) (face_info m g a)) /\
    (~ (looked_up_in mine a n m /\ g = g0) -> face_info m g a' = face_info m g a) /\
    (forall q, due_of a' q = due_of a q) /\ as_now a' = as_now a /\ as_probes a' = as_probes a.
  Proof using.
    clear est_new est_add est_rto probing_interval. unfold on_timeout_or_nack. pose proof (get_ns_spec n a) as H. destruct (get_ns n a) as [a1 [m1|]]; cbv zeta.
    2: { destruct H as [-> H]. split; [intros Hl; by apply H in Hl|done]. }
    destruct H as (S1 & Hd & Hl). pose proof (si_dom _ _ S1 _ Hd) as Hd1. rewrite (si_face _ _ S1). destruct (face_info m1 g0 a) as [fi|] eqn:Ef.
    - set (fi' := if (S (fi_n fi) <? max_timeouts)%nat && negb nack then _ else _).
      assert (Hall : (if (S (fi_n fi) <? max_timeouts)%nat && negb nack then set_face m1 g0 (cancel_timeout est n (extend_face est life (as_now a) (set_n est (S (fi_n fi)) fi))) a1
        else set_face m1 g0 (set_n est 0 (record_timeout est n (set_n est (S (fi_n fi)) fi))) a1) = set_face m1 g0 (upd_strike (as_now a) n nack fi) a1) by (unfold upd_strike; by destruct (_ && _)).
      unfold fi' in *. rewrite Hall. clear fi' Hall. rewrite set_face_spec by done. split; [|split; [|split; [|split]]].
      + intros Hl' ->. rewrite (looked_up_fun _ _ _ _ Hl' Hl), decide_True, Ef by done. done.
      + intros Hn. rewrite decide_False; [apply S1|]. intros [-> ->]. by apply Hn.
      + intros q. rewrite set_face_due. apply S1.
      + unfold Asf_Model.set_face. destruct (as_ns a1 !! m1); apply S1.
      + unfold Asf_Model.set_face. destruct (as_ns a1 !! m1); apply S1.
    - split; [|split; [|split; [|split]]]; try apply S1.
      + intros Hl' ->. rewrite (looked_up_fun _ _ _ _ Hl' Hl), Ef. by rewrite (si_face _ _ S1).
      + intros _. apply S1.
  Qed.
  Lemma after_send_spec p n g0 sent a a' m g : after_send est est_new est_rto mine life p n g0 sent a = Some a' ->
    (accounted_in mine p n m -> g = g0 -> face_info m g a' = Some (schedule_timeout est est_rto (as_now a) n (extend_face est life (as_now a) (default (new_face est est_new life (as_now a)) (face_info m g a))))) /\
    (~ (accounted_in mine p n m /\ g = g0) -> face_info m g a' = face_info m g a) /\
    (forall q, due_of a' q = due_of a q) /\ as_now a' = as_now a /\ as_probes a' = as_probes a.
  Proof using.
    clear est_add max_timeouts probing_interval. unfold after_send. pose proof (get_or_create_spec p n a) as H. destruct (get_or_create_ns p n a) as [[a1 m1]|]; [|done]. destruct H as (S1 & Hd & Hl). cbv zeta. intros [= <-].
    rewrite (si_face _ _ S1). rewrite set_face_spec by done. split; [|split; [|split; [|split]]].
    - intros Hl' ->. rewrite (accounted_fun _ _ _ _ Hl' Hl), decide_True by done. by destruct (face_info m1 g0 a).
    - intros Hn. rewrite decide_False; [apply S1|]. intros [-> ->]. by apply Hn.
    - intros q. rewrite set_face_due. apply S1.
    - unfold Asf_Model.set_face. destruct (as_ns a1 !! m1); apply S1.
    - unfold Asf_Model.set_face. destruct (as_ns a1 !! m1); apply S1.
  Qed.
End meas.
