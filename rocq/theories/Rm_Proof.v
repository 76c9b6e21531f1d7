From stdpp Require Import gmap.
From Verif Require Import Lib Name_Model Name_Proof Nt_Model Tab_Model Rib_Model Rib_Spec RibQueue_Model RibQueue_Spec Rib_Hier Rib_Inv Rib_Props RibFib_Look RibFib_Props RibQueue_Proof Rm_Model Rm_Spec.

Lemma rkey_eqb_eq a b : rkey_eqb a b = true <-> a = b.
Proof.
  destruct a as [[n f] o], b as [[n' f'] o']. unfold rkey_eqb. rewrite !andb_true_iff, name_eqb_eq, !N.eqb_eq. split; [by intros [[-> ->] ->]|by intros [= -> -> ->]].
Qed.
Lemma rkey_eqb_refl a : rkey_eqb a a = true. Proof. by apply rkey_eqb_eq. Qed.
Lemma rkey_eqb_neq a b : rkey_eqb a b = false <-> a <> b.
Proof. rewrite <-not_true_iff_false, rkey_eqb_eq. done. Qed.

(** ** The queue is the one of RibQueue_Model *)
Lemma cancel_q k M : m_q (cancel k M) = m_q M. Proof. unfold cancel. by destruct (m_owner M k). Qed.
Lemma cancel_now k M : m_now (cancel k M) = m_now M. Proof. unfold cancel. by destruct (m_owner M k). Qed.
Lemma cancel_owner k M : m_owner (cancel k M) = m_owner M. Proof. unfold cancel. by destruct (m_owner M k). Qed.
Lemma cancel_jobs k M : m_jobs (cancel k M) = m_jobs M. Proof. unfold cancel. by destruct (m_owner M k). Qed.
Lemma cancel_ann k M : m_ann (cancel k M) = m_ann M. Proof. unfold cancel. by destruct (m_owner M k). Qed.
Lemma cancel_timers k M x : x ∈ m_timers (cancel k M) <-> x ∈ m_timers M /\ m_owner M k <> Some (t_id x).
Proof.
  unfold cancel. destruct (m_owner M k) as [i|]; [|set_solver]. cbn [m_timers set_m_timers]. rewrite !elem_of_list_In, filter_In, negb_true_iff, N.eqb_neq. split; intros [H1 H2]; (split; [done|congruence]).
Qed.

(** ** An invariant *)
Notation log M := (q_log (m_q M)).
(** the number of the first update that waits *)
Definition first_waiting (M : mgr) : N := (q_next (m_q M) - N.of_nat (length (q_queue (m_q M))))%N.
Definition known (M : mgr) (j : job) : Prop := is_job M (fst j) (snd j).
Definition begun (M : mgr) (j : job) : Prop := known M j /\ (fst j < first_waiting M)%N.
Definition removes (k : rkey) (u : rib_update) : Prop := ru_action u <> Register /\ rkey_of (ru_name u) (ru_route u) = k.
Definition pending (M : mgr) (i : N) (t : Z) : Prop := exists x, x ∈ m_timers M /\ t_id x = i /\ t_at x = t.
Definition ordered (M : mgr) : Prop := report_numbers M = map N.of_nat (seq 0 (length (log M))).
Record timely (M : mgr) : Prop := {
  ti_rib : forall k i n r t, m_owner M k = Some i -> is_job M i (RibUpdate Register n r) -> r_expires r = Some t ->
    pending M i t \/ exists i' u, is_job M i' u /\ removes k u /\ ~ reported M i' true;
  ti_wait : forall i n r t, (length (log M) <= N.to_nat i)%nat -> is_job M i (RibUpdate Register n r) -> r_expires r = Some t ->
    pending M i t \/ exists i' u, is_job M i' u /\ removes (rkey_of n r) u /\ (i < i')%N;
}.
Record minv (M : mgr) : Prop := {
  mi_booked : booked (m_q M);
  mi_next : q_next (m_q M) = N.of_nat (length (m_jobs M));
  mi_queue : (length (q_queue (m_q M)) <= length (m_jobs M))%nat;
  mi_nums : forall i j, q_queue (m_q M) !! i = Some j -> fst j = (first_waiting M + N.of_nat i)%N /\ known M j;
  mi_out : forall c, c ∈ q_out (m_q M) -> begun M (c_job c);
  mi_log : forall x, x ∈ log M -> begun M (fst x);
  mi_owner : forall n f o, match m_owner M (n, f, o) with
                           | Some i => exists r, is_job M i (RibUpdate Register n r) /\ reported M i true /\ r_face r = f /\ r_origin r = o /\ route_in M n f o = Some r
                           | None => route_in M n f o = None
                           end;
  mi_timers : forall x, x ∈ m_timers M -> is_job M (t_id x) (RibUpdate Register (t_name x) (t_route x)) /\ r_expires (t_route x) = Some (t_at x) /\
                (reported M (t_id x) true -> m_owner M (rkey_of (t_name x) (t_route x)) = Some (t_id x));
  mi_nodup : NoDup (map t_id (m_timers M));
  mi_timely : ordered M -> timely M;
}.

Lemma is_job_inj M i u v : is_job M i u -> is_job M i v -> u = v.
Proof. unfold is_job. congruence. Qed.
Lemma is_job_lt M i u : is_job M i u -> (N.to_nat i < length (m_jobs M))%nat.
Proof. apply lookup_lt_Some. Qed.
Lemma ordered_reported M i ok : ordered M -> reported M i ok -> (N.to_nat i < length (log M))%nat.
Proof.
  intros H [u Hu]. assert (Hi : i ∈ report_numbers M). { unfold report_numbers. apply elem_of_list_fmap. by exists ((i, u), ok). }
  rewrite H in Hi. apply elem_of_list_fmap in Hi as (k & -> & Hk). apply elem_of_seq in Hk. lia.
Qed.
Lemma seq_snoc n k : map N.of_nat (seq n (S k)) = map N.of_nat (seq n k) ++ [N.of_nat (n + k)].
Proof. rewrite seq_S, map_app. done. Qed.
Lemma ordered_snoc M M' j ok : log M' = log M ++ [(j, ok)] -> ordered M' -> ordered M /\ N.to_nat (fst j) = length (log M).
Proof.
  unfold ordered, report_numbers. intros E. rewrite E, app_length, map_app. simpl. rewrite Nat.add_1_r, seq_snoc. intros [H1 H2]%app_inj_tail. simpl in H2. split; [done|]. lia.
Qed.
Lemma reported_snoc M M' j ok i b : log M' = log M ++ [(j, ok)] -> reported M' i b <-> reported M i b \/ (i = fst j /\ b = ok).
Proof.
  unfold reported. intros ->. split.
  - intros [u [H|H]%elem_of_app]; [left; by exists u|]. apply elem_of_list_singleton in H as [= <- ->]. by right.
  - intros [[u H]|[-> ->]]; [exists u; apply elem_of_app; by left|]. exists (snd j). apply elem_of_app. right. apply elem_of_list_singleton. by destruct j.
Qed.

(** the steps that leave the RIB, the reports, the jobs and the timers alone *)
Lemma minv_out q M : minv M ->
  q_rib q = q_rib (m_q M) -> q_log q = log M -> q_next q = q_next (m_q M) -> q_queue q = q_queue (m_q M) ->
  (forall c, c ∈ q_out q -> begun M (c_job c)) -> minv (set_m_q q M).
Proof.
  intros [I1 I2 I3 I4 I5 I6 I7 I8 I9 I10] ER EL EN EQ Ho.
  assert (Hf : first_waiting (set_m_q q M) = first_waiting M) by (unfold first_waiting; cbn [m_q set_m_q]; by rewrite EN, EQ).
  assert (Hrep : forall i b, reported (set_m_q q M) i b <-> reported M i b) by (intros; unfold reported; cbn [m_q set_m_q]; by rewrite EL).
  assert (Hb : forall j, begun (set_m_q q M) j <-> begun M j) by (intros; unfold begun; by rewrite Hf).
  split; cbn [m_q set_m_q m_jobs m_timers m_owner].
  - unfold booked in *. by rewrite ER, EL.
  - by rewrite EN.
  - by rewrite EQ.
  - intros i j. rewrite EQ, Hf. apply I4.
  - intros c Hc. apply Hb. by apply Ho.
  - intros x. rewrite EL, Hb. apply I6.
  - intros n f o. unfold route_in. cbn [m_q set_m_q]. rewrite ER. specialize (I7 n f o). destruct (m_owner M (n, f, o)) as [i|]; [|done]. destruct I7 as (r & H1 & H2 & H3). exists r. split; [done|]. split; [by apply Hrep|done].
  - intros x Hx. destruct (I8 x Hx) as (H1 & H2 & H3). split; [done|]. split; [done|]. intros Hr%Hrep. by apply H3.
  - done.
  - intros Hord. assert (Ho' : ordered M) by (unfold ordered, report_numbers in *; cbn [m_q set_m_q] in Hord; by rewrite EL in Hord).
    destruct (I10 Ho') as [T1 T2]. split; cbn [m_q set_m_q m_jobs m_timers m_owner].
    + intros k i n r t H1 H2 H3. destruct (T1 k i n r t H1 H2 H3) as [H|(i' & u & K1 & K2 & K3)]; [by left|right]. exists i', u. split; [done|]. split; [done|]. by rewrite Hrep.
    + rewrite EL. apply T2.
Qed.

Lemma nodup_filter (p : timer -> bool) l : NoDup (map t_id l) -> NoDup (map t_id (List.filter p l)).
Proof.
  induction l as [|x l IH]; simpl; [done|]. intros [H1 H2]%NoDup_cons. destruct (p x); simpl; [|by apply IH]. apply NoDup_cons. split; [|by apply IH].
  intros (y & Ey & Hy)%elem_of_list_fmap. apply H1. apply elem_of_list_fmap. exists y. split; [done|]. apply elem_of_list_In in Hy. apply filter_In in Hy as [Hy _]. by apply elem_of_list_In.
Qed.
(** a job is reported as done *)
Lemma finish_ok_minv j M M' : minv M -> begun M j -> m_finish_ok j M = Some M' -> minv M'.
Proof.
  intros [I1 I2 I3 I4 I5 I6 I7 I8 I9 I10] [Hk Hl] (q & Eq & [= <-])%obind_some. pose proof (finish_ok_booked _ _ _ I1 Eq) as Hb. pose proof Eq as Eq'. unfold finish_ok in Eq'.
  apply obind_some in Eq' as (R & ER & [= <-]). destruct I1 as [[ops Hops] Hra]. destruct (rib_apply_route _ _ _ _ _ Hops ER) as [_ HR].
  set (M' := set_m_owner _ _ _). assert (Elog : log M' = log M ++ [(j, true)]) by done.
  assert (Ejobs : m_jobs M' = m_jobs M) by (unfold M'; cbn [m_jobs set_m_owner set_m_q]; apply cancel_jobs).
  assert (Eown : forall k, m_owner M' k = if rkey_eqb k (job_key j) then match ru_action (snd j) with Register => Some (fst j) | _ => None end else m_owner M k).
  { intros k. unfold M'. cbn [m_owner set_m_owner set_m_q]. by rewrite cancel_owner. }
  assert (Etim : forall x, x ∈ m_timers M' <-> x ∈ m_timers M /\ m_owner M (job_key j) <> Some (t_id x)).
  { intros x. unfold M'. cbn [m_timers set_m_owner set_m_q]. apply cancel_timers. }
  assert (Hf : first_waiting M' = first_waiting M) by done.
  assert (Hj : forall i u, is_job M' i u <-> is_job M i u) by (intros; unfold is_job; by rewrite Ejobs).
  assert (Hbg : forall j, begun M' j <-> begun M j) by (intros; unfold begun, known; by rewrite Hf, Hj).
  assert (Hrep : forall i b, reported M' i b <-> reported M i b \/ (i = fst j /\ b = true)) by (intros; by apply reported_snoc).
  (* the owner of the key is another job *)
  assert (Hown : forall n f o i, m_owner M (n, f, o) = Some i -> exists r, is_job M i (RibUpdate Register n r) /\ reported M i true /\ rkey_of n r = (n, f, o)).
  { intros n f o i Ho. specialize (I7 n f o). rewrite Ho in I7. destruct I7 as (r & H1 & H2 & H3 & H4 & _). exists r. split; [done|]. split; [done|]. unfold rkey_of. by rewrite H3, H4. }
  split.
  - exact Hb.
  - by rewrite Ejobs.
  - by rewrite Ejobs.
  - intros i j' H. destruct (I4 i j' H) as [K1 K2]. split; [by rewrite Hf|]. unfold known. by apply Hj.
  - intros c Hc. by apply Hbg, I5.
  - intros x. rewrite Elog. intros [Hx|Hx]%elem_of_app; apply Hbg; [by apply I6|]. apply elem_of_list_singleton in Hx as ->. done.
  - intros n f o. rewrite Eown. unfold route_in. change (q_rib (m_q M')) with R. rewrite HR. destruct (rkey_eqb (n, f, o) (job_key j)) eqn:E.
    + apply rkey_eqb_eq in E. unfold job_key, rkey_of in E. injection E as -> -> ->. rewrite bool_decide_true by done. destruct (ru_action (snd j)) eqn:Ea; [|done|done].
      exists (ru_route (snd j)). split; [apply Hj; unfold known in Hk; destruct (snd j); simpl in *; by subst|]. split; [apply Hrep; by right|]. done.
    + rewrite bool_decide_false; [|intros (-> & -> & ->); by rewrite rkey_eqb_refl in E]. specialize (I7 n f o). destruct (m_owner M (n, f, o)) as [i|]; [|done].
      destruct I7 as (r & H1 & H2 & H3). exists r. split; [by apply Hj|]. split; [apply Hrep; by left|done].
  - intros x [Hx Hno]%Etim. destruct (I8 x Hx) as (H1 & H2 & H3). split; [by apply Hj|]. split; [done|]. rewrite Hrep, Eown. intros [Hr|[Hi _]].
    + destruct (rkey_eqb _ _) eqn:E; [|by apply H3]. apply rkey_eqb_eq in E. exfalso. apply Hno. rewrite <-E. by apply H3.
    + unfold known in Hk. rewrite <-Hi in Hk. pose proof (is_job_inj _ _ _ _ H1 Hk) as Es. unfold job_key. rewrite <-Es. cbn [ru_name ru_route ru_action]. by rewrite rkey_eqb_refl, Hi.
  - unfold M'. cbn [m_timers set_m_owner set_m_q]. unfold cancel. destruct (m_owner M (job_key j)); [|done]. cbn [m_timers set_m_timers].
    by apply nodup_filter.
  - intros Ho. destruct (ordered_snoc _ _ _ _ Elog Ho) as [Ho' Hn]. destruct (I10 Ho') as [T1 T2].
    assert (Hp : forall i t, m_owner M (job_key j) <> Some i -> pending M i t -> pending M' i t). { intros i t Hi (x & Hx & <- & Ht). exists x. split; [by apply Etim|done]. }
    assert (Hold : forall i, (length (log M) <= N.to_nat i)%nat -> m_owner M (job_key j) <> Some i).
    { intros i Hi E. unfold job_key, rkey_of in E. apply Hown in E as (r & _ & Hr & _). apply (ordered_reported _ _ _ Ho') in Hr. lia. }
    split.
    + intros k i n r t. rewrite Eown, Hj. destruct (rkey_eqb k (job_key j)) eqn:E.
      * apply rkey_eqb_eq in E. destruct (ru_action (snd j)) eqn:Ea; [|done|done]. intros [= <-] H1 H2. pose proof (is_job_inj _ _ _ _ H1 Hk) as Es.
        destruct (T2 (fst j) n r t ltac:(lia) H1 H2) as [H|(i' & u & K1 & K2 & K3)]; [left; apply Hp; [apply Hold; lia|done]|]. right. exists i', u. split; [by apply Hj|]. split; [by rewrite E; unfold job_key; rewrite <-Es|].
        rewrite Hrep. intros [Hr|[-> _]]; [apply (ordered_reported _ _ _ Ho') in Hr; lia|lia].
      * apply rkey_eqb_neq in E. intros H1 H2 H3. destruct (T1 k i n r t H1 H2 H3) as [H|(i' & u & K1 & K2 & K3)].
        -- left. apply Hp; [|done]. intros E2. destruct k as [[nk fk] ok]. apply Hown in H1 as (r1 & J1 & _ & Er1). unfold job_key, rkey_of in E2. apply Hown in E2 as (r2 & J2 & _ & Er2).
           pose proof (is_job_inj _ _ _ _ J1 J2) as [= -> ->]. apply E. rewrite <-Er1. done.
        -- right. exists i', u. split; [by apply Hj|]. split; [done|]. rewrite Hrep. intros [Hr|[-> _]]; [done|]. pose proof (is_job_inj _ _ _ _ K1 Hk) as Es. apply E. destruct K2 as [_ <-]. by rewrite Es.
    + intros i n r t. rewrite Elog, app_length, Hj. simpl. intros H1 H2 H3. destruct (T2 i n r t ltac:(lia) H2 H3) as [H|(i' & u & K1 & K2 & K3)]; [left; apply Hp; [apply Hold; lia|done]|]. right. exists i', u. split; [by apply Hj|done].
Qed.

(** a job is reported as failed *)
Lemma finish_failed_minv j M : minv M -> begun M j -> minv (m_finish_failed j M).
Proof.
  intros [I1 I2 I3 I4 I5 I6 I7 I8 I9 I10] Hbj. set (M' := m_finish_failed j M). assert (Elog : log M' = log M ++ [(j, false)]) by done.
  assert (Hrep : forall i b, reported M' i b <-> reported M i b \/ (i = fst j /\ b = false)) by (intros; by apply reported_snoc).
  assert (Hrept : forall i, reported M' i true <-> reported M i true). { intros i. rewrite Hrep. split; [by intros [H|[_ ?]]|by left]. }
  split; try done.
  - by apply finish_failed_booked.
  - intros x. rewrite Elog. intros [Hx|Hx]%elem_of_app; [by apply I6|]. apply elem_of_list_singleton in Hx as ->. done.
  - intros n f o. specialize (I7 n f o). change (m_owner M' (n, f, o)) with (m_owner M (n, f, o)). destruct (m_owner M (n, f, o)) as [i|]; [|done]. destruct I7 as (r & H1 & H2 & H3). exists r. split; [done|]. split; [by apply Hrept|done].
  - intros x Hx. destruct (I8 x Hx) as (H1 & H2 & H3). split; [done|]. split; [done|]. by rewrite Hrept.
  - intros Ho. destruct (ordered_snoc _ _ _ _ Elog Ho) as [Ho' Hn]. destruct (I10 Ho') as [T1 T2]. split.
    + intros k i n r t H1 H2 H3. destruct (T1 k i n r t H1 H2 H3) as [H|(i' & u & K1 & K2 & K3)]; [by left|right]. exists i', u. split; [done|]. split; [done|]. by rewrite Hrept.
    + intros i n r t. rewrite Elog, app_length. simpl. intros H1. apply T2. lia.
Qed.

(** the first job that waits is begun *)
Lemma begin_minv j rest M M' : minv M -> q_queue (m_q M) = j :: rest -> m_begin j rest M = Some M' -> minv M' /\ begun M' j.
Proof.
  intros [I1 I2 I3 I4 I5 I6 I7 I8 I9 I10] EQ (q & Eq & [= <-])%obind_some. unfold begin in Eq. apply obind_some in Eq as (c & _ & [= <-]).
  destruct (I4 0%nat j ltac:(by rewrite EQ)) as [Hn0 Hkj]. rewrite EQ in I3. simpl in I3.
  set (q' := Queue _ _ _ _ _ _ _ _ _ _). set (M1 := match ru_action (snd j) with Register => M | _ => cancel (job_key j) M end). set (M' := set_m_q q' M1).
  assert (Hf : first_waiting M' = (first_waiting M + 1)%N). { unfold first_waiting. cbn [m_q set_m_q q_next q_queue q' M']. rewrite EQ, I2. simpl. lia. }
  assert (Ejobs : m_jobs M' = m_jobs M) by (unfold M', M1; destruct (ru_action (snd j)); simpl; rewrite ?cancel_jobs; done).
  assert (Eown : m_owner M' = m_owner M) by (unfold M', M1; destruct (ru_action (snd j)); simpl; rewrite ?cancel_owner; done).
  assert (Etim : forall x, x ∈ m_timers M' <-> x ∈ m_timers M /\ (ru_action (snd j) <> Register -> m_owner M (job_key j) <> Some (t_id x))).
  { intros x. unfold M', M1. cbn [m_timers set_m_q]. destruct (ru_action (snd j)).
    - split; [intros H; split; [exact H|]|intros [H _]; exact H]. intros H1. by destruct H1.
    - rewrite cancel_timers. split; intros [H1 H2]; (split; [exact H1|]); [intros _; exact H2|apply H2; discriminate].
    - rewrite cancel_timers. split; intros [H1 H2]; (split; [exact H1|]); [intros _; exact H2|apply H2; discriminate]. }
  assert (Hj : forall i u, is_job M' i u <-> is_job M i u) by (intros; unfold is_job; by rewrite Ejobs).
  assert (Hbg : forall j', begun M j' -> begun M' j'). { intros j' [H1 H2]. split; [by apply Hj|]. rewrite Hf. lia. }
  assert (Elog : log M' = log M) by done.
  assert (Hrep : forall i b, reported M' i b <-> reported M i b) by done.
  assert (Hbj : begun M' j). { split; [by apply Hj|]. rewrite Hf, Hn0. simpl. lia. }
  split; [|done]. split.
  - exact I1.
  - rewrite Ejobs. exact I2.
  - rewrite Ejobs. cbn [m_q set_m_q q_queue q' M']. lia.
  - intros i j' H. cbn [m_q set_m_q q_queue q' M'] in H. destruct (I4 (S i) j' ltac:(by rewrite EQ)) as [K1 K2]. split; [rewrite Hf, K1; lia|by apply Hj].
  - intros c' Hc. apply Hbg. by apply I5.
  - intros x Hx. apply Hbg. by apply I6.
  - intros n f o. rewrite Eown. change (route_in M' n f o) with (route_in M n f o). specialize (I7 n f o). destruct (m_owner M (n, f, o)) as [i|]; [|done]. destruct I7 as (r & H1 & H2 & H3). exists r. split; [by apply Hj|]. split; [done|done].
  - intros x [Hx _]%Etim. rewrite Eown. destruct (I8 x Hx) as (H1 & H2 & H3). split; [by apply Hj|]. done.
  - assert (Hsub : m_timers M' = m_timers M \/ exists p, m_timers M' = List.filter p (m_timers M)).
    { unfold M', M1. cbn [m_timers set_m_q]. destruct (ru_action (snd j)); [by left| |]; unfold cancel; (destruct (m_owner M (job_key j)); [right; by eexists|by left]). }
    destruct Hsub as [->|[p ->]]; [done|]. by apply nodup_filter.
  - intros Ho. assert (Ho' : ordered M) by exact Ho. destruct (I10 Ho') as [T1 T2].
    assert (Hnr : ~ reported M (fst j) true). { intros [u Hu%I6]. destruct Hu as [_ Hu]. simpl in Hu. rewrite Hn0 in Hu. lia. }
    assert (Hown : forall n f o i, m_owner M (n, f, o) = Some i -> exists r, is_job M i (RibUpdate Register n r) /\ reported M i true /\ rkey_of n r = (n, f, o)).
    { intros n f o i Hoi. specialize (I7 n f o). rewrite Hoi in I7. destruct I7 as (r & H1 & H2 & H3 & H4 & _). exists r. split; [done|]. split; [done|]. unfold rkey_of. by rewrite H3, H4. }
    assert (Hjobkey : ru_action (snd j) <> Register -> removes (job_key j) (snd j)) by done.
    split.
    + intros k i n r t. rewrite Eown, Hj. intros H1 H2 H3. destruct (T1 k i n r t H1 H2 H3) as [(x & Hx & Hi & Ht)|(i' & u & K1 & K2 & K3)]; [|right; exists i', u; split; [by apply Hj|done]].
      destruct (decide (k = job_key j)) as [->|Hne].
      * destruct (ru_action (snd j)) eqn:Ea; [left; exists x; split; [apply Etim; split; [done|congruence]|done]| |]; right; exists (fst j), (snd j); (split; [by apply Hj|]); (split; [apply Hjobkey; congruence|done]).
      * left. exists x. split; [|done]. apply Etim. split; [done|]. intros _ E2. subst i. destruct k as [[nk fk] ok]. apply Hown in H1 as (r1 & J1 & _ & Er1). unfold job_key, rkey_of in E2. apply Hown in E2 as (r2 & J2 & _ & Er2).
        pose proof (is_job_inj _ _ _ _ J1 J2) as [= -> ->]. apply Hne. rewrite <-Er1. done.
    + intros i n r t. rewrite Elog, Hj. intros H1 H2 H3. destruct (T2 i n r t H1 H2 H3) as [(x & Hx & Hi & Ht)|(i' & u & K1 & K2 & K3)]; [|right; exists i', u; split; [by apply Hj|done]].
      left. exists x. split; [|done]. apply Etim. split; [done|]. intros _ E2. subst i. unfold job_key, rkey_of in E2. apply Hown in E2 as (r2 & _ & Hr & _). apply (ordered_reported _ _ _ Ho') in Hr. lia.
Qed.

(** a job is submitted; [T]: the timers then *)
Definition submit_state (u : rib_update) (T : list timer) (A : N -> option (announcement * Z)) (M : mgr) : mgr :=
  Mgr (enqueue u (m_q M)) (m_now M) T (m_owner M) A (m_jobs M ++ [u]).
Lemma submit_minv u T A M : minv M ->
  NoDup (map t_id T) ->
  (forall x, x ∈ T -> x ∈ m_timers M \/ (t_id x = q_next (m_q M) /\ u = RibUpdate Register (t_name x) (t_route x) /\ r_expires (t_route x) = Some (t_at x))) ->
  (forall x, x ∈ m_timers M -> x ∈ T \/ removes (rkey_of (t_name x) (t_route x)) u) ->
  (forall n r t, u = RibUpdate Register n r -> r_expires r = Some t -> exists x, x ∈ T /\ t_id x = q_next (m_q M) /\ t_at x = t) ->
  minv (submit_state u T A M).
Proof.
  intros [I1 I2 I3 I4 I5 I6 I7 I8 I9 I10] HT1 HT2 HT3 HT4. set (M' := submit_state u T A M).
  assert (Hj : forall i v, is_job M i v -> is_job M' i v). { unfold is_job. intros i v H. cbn [m_jobs M' submit_state]. by apply lookup_app_l_Some. }
  assert (Hnew : is_job M' (q_next (m_q M)) u). { unfold is_job. cbn [m_jobs M' submit_state]. rewrite I2, Nat2N.id. rewrite lookup_app_r by lia. by rewrite Nat.sub_diag. }
  assert (Hback : forall i v, is_job M' i v -> is_job M i v \/ (i = q_next (m_q M) /\ v = u)).
  { unfold is_job. cbn [m_jobs M' submit_state]. intros i v [H|[H1 H2]]%lookup_app_Some; [by left|right]. apply list_lookup_singleton_Some in H2 as [H2 <-]. split; [|done]. rewrite I2. lia. }
  assert (Hf : first_waiting M' = first_waiting M). { unfold first_waiting. cbn [m_q M' submit_state enqueue q_next q_queue]. rewrite app_length. simpl. rewrite I2. lia. }
  assert (Hrep : forall i b, reported M' i b <-> reported M i b) by done.
  assert (Hbg : forall j, begun M j -> begun M' j). { intros j' [H1 H2]. split; [by apply Hj|]. by rewrite Hf. }
  assert (Hnr : forall b, ~ reported M (q_next (m_q M)) b). { intros b [v Hv%I6]. destruct Hv as [Hv%is_job_lt _]. simpl in Hv. rewrite I2 in Hv. lia. }
  split.
  - exact I1.
  - cbn [m_q M' submit_state enqueue q_next m_jobs]. rewrite app_length. simpl. rewrite I2. lia.
  - cbn [m_q M' submit_state enqueue q_queue m_jobs]. rewrite !app_length. simpl. lia.
  - intros i j. cbn [m_q M' submit_state enqueue q_queue]. intros [H|[H1 H2]]%lookup_app_Some.
    + destruct (I4 i j H) as [K1 K2]. rewrite Hf. split; [done|by apply Hj].
    + apply list_lookup_singleton_Some in H2 as [H2 <-]. split; [|exact Hnew]. rewrite Hf. cbn [fst]. unfold first_waiting. rewrite I2. clear -H1 H2 I3. unfold job in *. lia.
  - intros c Hc. by apply Hbg, I5.
  - intros x Hx. by apply Hbg, I6.
  - intros n f o. cbn [m_owner M' submit_state]. change (route_in M' n f o) with (route_in M n f o). specialize (I7 n f o). destruct (m_owner M (n, f, o)) as [i|]; [|done]. destruct I7 as (r & H1 & H2 & H3). exists r. split; [by apply Hj|done].
  - intros x Hx. cbn [m_owner M' submit_state]. cbn [m_timers M' submit_state] in Hx. destruct (HT2 x Hx) as [Ho|(H1 & H2 & H3)].
    + destruct (I8 x Ho) as (H1 & H2 & H3). split; [by apply Hj|done].
    + split; [rewrite H1, <-H2; exact Hnew|]. split; [done|]. rewrite H1. intros Hr. by apply Hrep, Hnr in Hr.
  - exact HT1.
  - intros Ho. assert (Ho' : ordered M) by exact Ho. destruct (I10 Ho') as [T1 T2].
    assert (Hlog : (length (log M) <= length (m_jobs M))%nat).
    { unfold ordered in Ho'. destruct (decide (length (log M) = 0)%nat) as [|Hne]; [lia|].
      assert (Hin : N.of_nat (length (log M) - 1) ∈ report_numbers M). { rewrite Ho'. apply elem_of_list_fmap. exists (length (log M) - 1)%nat. split; [done|]. apply elem_of_seq. lia. }
      apply elem_of_list_fmap in Hin as (x & Hx & Hin). apply I6 in Hin as [Hin%is_job_lt _]. unfold job in *. rewrite <-Hx in Hin. lia. }
    split.
    + intros k i n r t Hk [H2|[-> <-]]%Hback H3.
      * cbn [m_owner M' submit_state] in Hk. destruct (T1 k i n r t Hk H2 H3) as [(x & Hx & Hi & Ht)|(i' & v & K1 & K2 & K3)]; [|right; exists i', v; split; [by apply Hj|done]].
        destruct (HT3 x Hx) as [Hin|Hrem]; [left; by exists x|]. right. exists (q_next (m_q M)), u. split; [done|]. split; [|by apply Hnr].
        destruct (I8 x Hx) as (J1 & _). rewrite Hi in J1. destruct k as [[nk fk] ok]. specialize (I7 nk fk ok). rewrite Hk in I7. destruct I7 as (r' & J2 & _ & <- & <- & _).
        pose proof (is_job_inj _ _ _ _ J1 J2) as [= Ex1 Ex2]. rewrite Ex1, Ex2 in Hrem. exact Hrem.
      * cbn [m_owner M' submit_state] in Hk. destruct k as [[nk fk] ok]. specialize (I7 nk fk ok). rewrite Hk in I7. destruct I7 as (r' & _ & Hr & _). by apply Hnr in Hr.
    + intros i n r t Hl [H2|[-> Hu]]%Hback H3.
      * destruct (T2 i n r t Hl H2 H3) as [(x & Hx & Hi & Ht)|(i' & v & K1 & K2 & K3)]; [|right; exists i', v; split; [by apply Hj|done]].
        destruct (HT3 x Hx) as [Hin|Hrem]; [left; by exists x|]. right. exists (q_next (m_q M)), u. split; [done|]. destruct (I8 x Hx) as (J1 & _). rewrite Hi in J1. pose proof (is_job_inj _ _ _ _ J1 H2) as [= Ex1 Ex2]. rewrite Ex1, Ex2 in Hrem. split; [done|].
        apply is_job_lt in H2. rewrite I2. lia.
      * left. symmetry in Hu. destruct (HT4 n r t Hu H3) as (x & Hx & E1 & E2). by exists x.
Qed.
