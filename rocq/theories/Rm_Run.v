From stdpp Require Import gmap.
From Verif Require Import Lib Name_Model Name_Proof Nt_Model Tab_Model Rib_Model Rib_Spec RibQueue_Model RibQueue_Spec Rib_Hier Rib_Inv Rib_Props RibFib_Look RibFib_Props RibQueue_Proof Rm_Model Rm_Spec Rm_Proof.

Lemma begun_set q M j : q_next q = q_next (m_q M) -> q_queue q = q_queue (m_q M) -> begun (set_m_q q M) j <-> begun M j.
Proof. intros E1 E2. unfold begun, known, is_job, first_waiting. cbn [m_q set_m_q m_jobs]. by rewrite E1, E2. Qed.
Lemma send_minv j l M : minv M -> begun M j -> minv (set_m_q (send j l (m_q M)) M).
Proof.
  intros I Hj. apply minv_out; try done. intros c. cbn [send q_out]. intros [Hc|Hc]%elem_of_app; [by apply (mi_out _ I)|]. apply elem_of_list_fmap in Hc as (x & -> & _). done.
Qed.
(** what the lifted functions keep besides *)
Record frame (M M' : mgr) : Prop := {
  fr_now : m_now M' = m_now M; fr_ann : m_ann M' = m_ann M; fr_jobs : m_jobs M' = m_jobs M; fr_next : q_next (m_q M') = q_next (m_q M);
  fr_timers : forall x, x ∈ m_timers M' -> x ∈ m_timers M;
}.
Lemma frame_refl M : frame M M. Proof. by split. Qed.
Lemma frame_trans M1 M2 M3 : frame M1 M2 -> frame M2 M3 -> frame M1 M3.
Proof. intros [A1 A2 A3 A4 A5] [B1 B2 B3 B4 B5]. split; [congruence|congruence|congruence|congruence|auto]. Qed.
Lemma frame_cancel k M : frame M (cancel k M).
Proof. split; rewrite ?cancel_now, ?cancel_ann, ?cancel_jobs, ?cancel_q; try done. intros x Hx. by apply cancel_timers in Hx as [? _]. Qed.
Lemma frame_set_q q M : q_next q = q_next (m_q M) -> frame M (set_m_q q M).
Proof. by split. Qed.
Lemma frame_finish_ok j M M' : m_finish_ok j M = Some M' -> frame M M'.
Proof.
  intros (q & (R & _ & [= <-])%obind_some & [= <-])%obind_some. destruct (frame_cancel (job_key j) M). by split.
Qed.
Lemma frame_begin j rest M M' : m_begin j rest M = Some M' -> frame M M'.
Proof.
  intros (q & (c & _ & [= <-])%obind_some & [= <-])%obind_some. destruct (frame_cancel (job_key j) M). destruct (ru_action (snd j)); by split.
Qed.
Lemma frame_failed j M : frame M (m_finish_failed j M). Proof. by split. Qed.

Definition fine (M M' : mgr) : Prop := minv M' /\ frame M M'.
Lemma advance_fine fuel M M' : minv M -> m_advance fuel M = Some M' -> fine M M'.
Proof.
  revert M. induction fuel as [|fuel IH]; intros M I; simpl; destruct (q_busy (m_q M)); try (intros [= <-]; split; [done|apply frame_refl]);
    destruct (q_queue (m_q M)) as [|j rest] eqn:EQ; try done; try (intros [= <-]; split; [done|apply frame_refl]).
  intros (M1 & E1 & H)%obind_some. destruct (begin_minv _ _ _ _ I EQ E1) as [I1 B1]. pose proof (frame_begin _ _ _ _ E1) as F1.
  assert (Hs : forall l, fine M (set_m_q (send j l (m_q M1)) M1)). { intros l. split; [by apply send_minv|]. eapply frame_trans; [exact F1|]. by apply frame_set_q. }
  destruct (q_batch (m_q M1)) as [|b bs]; [|injection H as <-; apply Hs]. destruct (q_other (m_q M1)); [|injection H as <-; apply Hs].
  apply obind_some in H as (M2 & E2 & H). pose proof (finish_ok_minv _ _ _ I1 B1 E2) as I2. apply IH in H as [H1 H2]; [|done]. split; [done|].
  eapply frame_trans; [exact F1|]. eapply frame_trans; [by eapply frame_finish_ok|exact H2].
Qed.
Lemma go_fine M M' : minv M -> m_go M = Some M' -> fine M M'.
Proof. apply advance_fine. Qed.
Lemma succeed_fine j M M' : minv M -> begun M j -> m_succeed j M = Some M' -> fine M M'.
Proof.
  intros I B (M1 & E1 & H)%obind_some. apply go_fine in H as [H1 H2]; [|by eapply finish_ok_minv]. split; [done|]. eapply frame_trans; [by eapply frame_finish_ok|done].
Qed.
Lemma fail_fine j M M' : minv M -> begun M j -> m_fail j M = Some M' -> fine M M'.
Proof. intros I B H. apply go_fine in H as [H1 H2]; [|by apply finish_failed_minv]. split; [done|]. eapply frame_trans; [apply frame_failed|done]. Qed.
Lemma fine_set q M M' : q_next q = q_next (m_q M) -> fine (set_m_q q M) M' -> fine M M'.
Proof. intros E [H1 H2]. split; [done|]. eapply frame_trans; [by apply frame_set_q|exact H2]. Qed.
Lemma other_done_fine j u M M' : minv M -> begun M j -> m_other_done j u M = Some M' -> fine M M'.
Proof.
  intros I B. unfold m_other_done. set (q := set_q_other _ _). assert (I1 : minv (set_m_q q M)) by (apply minv_out; try done; apply (mi_out _ I)).
  assert (B1 : begun (set_m_q q M) j) by (by apply begun_set).
  destruct (q_other (m_q (set_m_q q M))).
  - intros H. apply (fine_set q); [done|]. by eapply succeed_fine.
  - intros [= <-]. split; [done|by apply frame_set_q].
Qed.
Lemma respond_fine c r M M' : minv M -> begun M (c_job c) -> m_respond c r M = Some M' -> fine M M'.
Proof.
  intros I B. unfold m_respond. destruct r; [| |destruct (_ =? _)%N|done].
  - destruct (_ =? _)%N; [|by apply other_done_fine]. set (q := set_q_batch _ _). assert (I1 : minv (set_m_q q M)) by (apply minv_out; try done; apply (mi_out _ I)).
    assert (B1 : begun (set_m_q q M) (c_job c)) by (by apply begun_set). destruct (q_batch (m_q (set_m_q q M))); [|intros [= <-]; split; [done|by apply frame_set_q]].
    unfold m_send_other. destruct (q_other (m_q (set_m_q q M))); intros H; apply (fine_set q); try done; [by eapply succeed_fine|]. injection H as <-. split; [by apply (send_minv _ _ (set_m_q q M))|by apply frame_set_q].
  - destruct (_ <? _)%N; [|done]. intros [= <-]. split; [|by apply frame_set_q]. apply minv_out; try done. intros c'. cbn [q_out set_q_out]. intros [Hc|Hc]%elem_of_app; [by apply (mi_out _ I)|]. by apply elem_of_list_singleton in Hc as ->.
  - by apply fail_fine.
  - by apply other_done_fine.
Qed.

(** ** Submissions *)
Lemma enqueue_minv u M : minv M -> (forall n r t, u = RibUpdate Register n r -> r_expires r <> Some t) -> minv (m_enqueue u M).
Proof.
  intros I Hu. apply (submit_minv u (m_timers M) (m_ann M) M I); [apply I|by left|by left|]. intros n r t E1 E2. exfalso. by eapply Hu.
Qed.
Record added_jobs (us : list rib_update) (M M' : mgr) : Prop := {
  aj_now : m_now M' = m_now M; aj_jobs : m_jobs M' = m_jobs M ++ us;
}.
Lemma submit_fine u M M' : minv M -> (forall n r t, u = RibUpdate Register n r -> r_expires r <> Some t) -> m_submit u M = Some M' -> minv M' /\ added_jobs [u] M M' /\ m_ann M' = m_ann M.
Proof. intros I Hu H. apply go_fine in H as [H1 [F1 F2 F3 F4 F5]]; [|by apply enqueue_minv]. split; [done|]. split; [split; [by rewrite F1|by rewrite F3]|by rewrite F2]. Qed.
(** the update that addRoute submits *)
Definition add_update_of (now : Z) (n : name) (r : route) : rib_update :=
  RibUpdate (match r_expires r with Some t => if (t <=? now)%Z then Unregister else Register | None => Register end) n r.
Lemma add_route_fine n r a M M' res : minv M -> add_route n r a M = Some (M', res) ->
  minv M' /\ added_jobs [add_update_of (m_now M) n r] M M' /\
  res = (match ru_action (add_update_of (m_now M) n r) with Register => ASubmitted (q_next (m_q M)) | _ => AExpired end) /\
  m_ann M' = (match ru_action (add_update_of (m_now M) n r) with Register => fun k => if (k =? q_next (m_q M))%N then a else m_ann M k | _ => m_ann M end).
Proof.
  intros I. unfold add_route, add_update_of. set (i := q_next (m_q M)). destruct (r_expires r) as [t|] eqn:Er; [destruct (t <=? m_now M)%Z eqn:Et|].
  - intros (M1 & E1 & [= <- <-])%obind_some. apply submit_fine in E1 as (H1 & H2 & H3); [|done|done]. done.
  - intros (M1 & E1 & [= <- <-])%obind_some. unfold m_submit in E1.
    set (A := fun k : N => if (k =? i)%N then a else m_ann M k) in *. set (T := m_timers M ++ [Timer i t n r]).
    assert (I1 : minv (submit_state (RibUpdate Register n r) T A M)).
    { apply submit_minv; [done| | | |].
      - unfold T. rewrite map_app. apply NoDup_app. split; [apply I|]. split; [|apply NoDup_singleton]. intros x (y & -> & Hy)%elem_of_list_fmap Hin. apply elem_of_list_singleton in Hin. cbn [t_id] in Hin.
        apply (mi_timers _ I) in Hy as (Hy & _). apply is_job_lt in Hy. rewrite Hin in Hy. unfold i in Hy. rewrite (mi_next _ I) in Hy. lia.
      - intros x [Hx|Hx]%elem_of_app; [by left|]. apply elem_of_list_singleton in Hx as ->. right. done.
      - intros x Hx. left. apply elem_of_app. by left.
      - intros n' r' t' [= <- <-] H. rewrite Er in H. injection H as <-. eexists. split; [apply elem_of_app; right; by apply elem_of_list_singleton|]. done. }
    destruct (go_fine (submit_state (RibUpdate Register n r) T A M) _ I1 E1) as [H1 [F1 F2 F3 F4 F5]]. split; [done|]. split; [split; [by rewrite F1|by rewrite F3]|]. split; [done|]. by rewrite F2.
  - intros (M1 & E1 & [= <- <-])%obind_some. unfold m_submit in E1. set (A := fun k : N => if (k =? i)%N then a else m_ann M k) in *.
    assert (I1 : minv (submit_state (RibUpdate Register n r) (m_timers M) A M)).
    { apply submit_minv; [done|apply I|by left|by left|]. intros n' r' t' [= <- <-] H. congruence. }
    destruct (go_fine (submit_state (RibUpdate Register n r) (m_timers M) A M) _ I1 E1) as [H1 [F1 F2 F3 F4 F5]]. split; [done|]. split; [split; [by rewrite F1|by rewrite F3]|]. split; [done|]. by rewrite F2.
Qed.
Lemma remove_all_fine l M M' : minv M -> m_remove_all l M = Some M' ->
  minv M' /\ added_jobs (map (fun x => RibUpdate RemoveFace (fst x) (snd x)) l) M M' /\ m_ann M' = m_ann M.
Proof.
  intros I. unfold m_remove_all. intros H.
  enough (K : forall M0, minv M0 -> let M1 := fold_left (fun M x => m_enqueue (RibUpdate RemoveFace (fst x) (snd x)) M) l M0 in minv M1 /\ added_jobs (map (fun x => RibUpdate RemoveFace (fst x) (snd x)) l) M0 M1 /\ m_ann M1 = m_ann M0).
  { destruct (K M I) as (K1 & [K2 K3] & K4). apply go_fine in H as [H1 [F1 F2 F3 F4 F5]]; [|done]. split; [done|]. split; [split; congruence|congruence]. }
  clear H I M M'. induction l as [|x l IH]; intros M I; [split; [done|]; split; [split; [done|by rewrite app_nil_r]|done]|]. cbn [fold_left map].
  destruct (IH (m_enqueue (RibUpdate RemoveFace (fst x) (snd x)) M)) as (K1 & [K2 K3] & K4); [by apply enqueue_minv|]. split; [done|]. split; [split; [by rewrite K2|]|by rewrite K4]. rewrite K3. cbn [m_jobs m_enqueue]. by rewrite <-app_assoc.
Qed.
Lemma find_timer i l x : List.find (fun x => (t_id x =? i)%N) l = Some x -> x ∈ l /\ t_id x = i.
Proof. intros [H1 H2]%find_some. split; [by apply elem_of_list_In|by apply N.eqb_eq]. Qed.
(** the update that a due timer submits *)
Definition fire_updates (i : N) (M : mgr) : list rib_update :=
  match List.find (fun x => (t_id x =? i)%N) (m_timers M) with
  | Some x => if (t_at x <=? m_now M)%Z then [RibUpdate Unregister (t_name x) (t_route x)] else []
  | None => []
  end.
Lemma fire_fine i M M' : minv M -> fire i M = Some M' -> minv M' /\ added_jobs (fire_updates i M) M M' /\ m_ann M' = m_ann M.
Proof.
  intros I. unfold fire, fire_updates. assert (Hid : minv M /\ added_jobs [] M M /\ m_ann M = m_ann M) by (split; [done|]; split; [split; [done|by rewrite app_nil_r]|done]).
  destruct (List.find _ _) as [x|] eqn:Ef; [|intros [= <-]; exact Hid]. destruct (t_at x <=? m_now M)%Z; [|intros [= <-]; exact Hid]. intros H. apply find_timer in Ef as [Hx Hi].
  set (T := List.filter (fun y => negb (t_id y =? i)%N) (m_timers M)) in *. set (u := RibUpdate Unregister (t_name x) (t_route x)) in *.
  assert (I1 : minv (submit_state u T (m_ann M) M)).
  { apply submit_minv; [done|by apply nodup_filter, I| | |done].
    - intros y Hy. left. apply elem_of_list_In in Hy. apply filter_In in Hy as [Hy _]. by apply elem_of_list_In.
    - intros y Hy. destruct (decide (t_id y = i)) as [E|E].
      + right. assert (y = x) as ->; [|done]. apply elem_of_list_lookup in Hx as [a Ha]. apply elem_of_list_lookup in Hy as [b Hb]. pose proof (mi_nodup _ I) as Hn. rewrite NoDup_alt in Hn.
        assert (a = b) as ->; [|congruence]. apply (Hn a b i); rewrite list_lookup_fmap; [by rewrite Ha; simpl; rewrite Hi|by rewrite Hb; simpl; rewrite E].
      + left. apply elem_of_list_In, filter_In. split; [by apply elem_of_list_In|]. apply negb_true_iff, N.eqb_neq. done. }
  destruct (go_fine (submit_state u T (m_ann M) M) _ I1 H) as [H1 [F1 F2 F3 F4 F5]]. split; [done|]. split; [split; [by rewrite F1|by rewrite F3]|by rewrite F2].
Qed.
Lemma minv_init : minv mgr_init.
Proof.
  split; simpl; try done; try lia.
  - split; [by exists []|done].
  - intros c Hc. by apply elem_of_nil in Hc.
  - intros c Hc. by apply elem_of_nil in Hc.
  - intros x Hx. by apply elem_of_nil in Hx.
  - constructor.
Qed.
Lemma minv_now t M : minv M -> minv (set_m_now t M).
Proof. intros [I1 I2 I3 I4 I5 I6 I7 I8 I9 I10]. split; try done. intros Ho. destruct (I10 Ho) as [T1 T2]. by split. Qed.
Lemma m_run_snoc l e : m_run (l ++ [e]) = match m_run l with Some M => fst <$> m_step e M | None => None end.
Proof. unfold m_run. rewrite each_of_app. destruct (each_of _ l mgr_init) as [M|]; [|done]. simpl. by destruct (m_step e M). Qed.
