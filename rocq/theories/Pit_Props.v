(** Properties C16, C17, C18 and C19: the PIT.  See Fib_Props.v for [env_ok] and
    what [tab_reachable] ranges over. *)
From stdpp Require Import gmap.
From Verif Require Import Lib Name_Model Name_Proof Packet_Model Cs_Spec Cs_Find Nt_Model Tree_Model Tree_Proof Tab_Model Tab_Spec Tab_At Tab_Fib Tab_Pit Tab_Pit2 Tab_Clean Tab_Run Tab_Main Fib_Props.

Section props.
  Variable sort : list nexthop -> list nexthop.
  Variable cs : name -> create_result.
  Variable st : name -> name -> bool.
  Notation reachable := (tab_reachable sort cs st).
  Notation env_ok := (env_ok sort st).

  (** C16: insert never fails; it returns the entry with equal name, CanBePrefix and
      MustBeFresh if there is one and else creates one without records; all other entries
      and tables stay as they are. *)
  Theorem C16_insert T i : env_ok -> reachable T ->
    exists T' pe, pit_insert i T = Some (T', pe, match pit_at T (key_of i) with None => true | Some _ => false end) /\
      pe = default (PitEntry i [] [] false 0 None []) (pit_at T (key_of i)) /\
      (forall k, pit_at T' k = if decide (k = key_of i) then Some pe else pit_at T k) /\
      same_fib T T' /\ same_meas T T' /\ same_sc T T' /\ now T' = now T.
  Proof.
    intros [Hs Hr] R. apply (reachable_inv sort cs st Hs Hr) in R. destruct (pit_insert_ok i T (ti_tree _ R) (ti_pit _ R)) as (T' & l & H1 & _ & _ & H2 & H3 & _).
    exists T'. eexists. split; [exact H1|]. split; [done|]. split; [exact H3|]. by apply (only_pit_frame _ _ _ _ H2).
  Qed.
  (** C16: an entry is reached under the key of the Interest it was made for. *)
  Theorem C16_key T k pe : env_ok -> reachable T -> pit_at T k = Some pe -> key_of (pe_interest pe) = k.
  Proof.
    intros [Hs Hr] R. apply (reachable_inv sort cs st Hs Hr) in R. rewrite pit_at_pview. intros H.
    by apply (pview_Some _ _ _ _ _ (ti_pit _ R)) in H as [_ ?].
  Qed.
  (** C16: erase removes that entry and nothing else. *)
  Theorem C16_erase T k : env_ok -> reachable T -> is_Some (pit_at T k) ->
    exists T', pit_erase k T = Some T' /\
      (forall k', pit_at T' k' = if decide (k' = k) then None else pit_at T k') /\
      same_fib T T' /\ same_meas T T' /\ same_sc T T' /\ now T' = now T.
  Proof.
    intros [Hs Hr] R Hk. apply (reachable_inv sort cs st Hs Hr) in R. destruct (pit_erase_ok k T (ti_tree _ R) (ti_pit _ R) Hk) as (T' & l & H1 & _ & _ & H2 & H3 & _).
    exists T'. split; [exact H1|]. split; [exact H3|]. by apply (only_pit_frame _ _ _ _ H2).
  Qed.
  (** C16: at most one entry per key, and size() is the number of entries. *)
  Theorem C16_size T : env_ok -> reachable T ->
    NoDup (pe_key <$> pit_entries T) /\
    (forall pe, pe ∈ pit_entries T <-> pit_at T (pe_key pe) = Some pe) /\
    pit_n T = (N.of_nat (length (pit_entries T)) mod 2 ^ 64)%N.
  Proof.
    intros H R. pose proof R as R'. destruct H as [Hs Hr]. apply (reachable_inv sort cs st Hs Hr) in R. destruct (pit_entries_ok T (ti_pit _ R)) as [H1 H2].
    split; [done|]. split; [done|]. destruct (pi_count _ _ _ (ti_pit _ R)) as (k & Hk & ->).
    rewrite <- (counts_list (fun n => pit_at T n) pe_key (pit_entries T) k); try done.
    - intros n pe Hn. by apply (C16_key T n pe).
    - eapply counts_ext; [|exact Hk]. intros x. by rewrite pit_at_pview.
  Qed.
  (** C16 (partial): find agrees with insert, except that it trips an assertion when the name
      tree holds a dangling entry (no table entries at or below it) for the name
      searched; such entries are reachable, see C16_find_refuted. *)
  Definition dangling (T : tables) (p : name) : Prop :=
    is_Some (tr T !! p) /\ forall q e, tr T !! q = Some e -> p `prefix_of` q -> q = p /\ has_tables e = false.
  Theorem C16_find_partial T i : env_ok -> reachable T ->
    (dangling T (pit_nte (i_name i)) -> pit_find i T = None) /\
    (~ dangling T (pit_nte (i_name i)) -> pit_find i T = Some (pit_at T (key_of i))).
  Proof.
    intros [Hs Hr] R. apply (reachable_inv sort cs st Hs Hr) in R.
    assert (Hd : dangling T (pit_nte (i_name i)) <-> pit_find i T = None).
    { rewrite (pit_find_None i T (ti_tree _ R) (ti_pit _ R)). symmetry.
      exact (t_is_empty_iff has_tables (pit_nte (i_name i)) (tr T) (tk_closed _ (ti_tree _ R))). }
    split; [apply Hd|]. intros Hn. destruct (pit_find i T) as [r|] eqn:E; [|by destruct Hn; apply Hd].
    f_equal. by apply (pit_find_ok i T r (ti_tree _ R) (ti_pit _ R)).
  Qed.

  (** C17: the entries found for a Data are those whose Interest it satisfies, each once. *)
  Theorem C17_matches T d : env_ok -> reachable T ->
    NoDup (pit_all_data_matches d T) /\
    (forall pe, pe ∈ pit_all_data_matches d T <->
       pit_at T (key_of (pe_interest pe)) = Some pe /\
       name_satisfies (pe_interest pe) d /\ (i_mbf (pe_interest pe) = true -> (0 < d_fresh d)%Z)).
  Proof.
    intros [Hs Hr] R. apply (reachable_inv sort cs st Hs Hr) in R. destruct (pit_matches_ok d T (ti_tree _ R) (ti_pit _ R)) as [H1 H2].
    split; [done|]. intros pe. rewrite H2. by rewrite matches_data_spec.
  Qed.

  (** C18: one record per face and direction; an in-record expires at its last renewal plus
      the lifetime (at most ten days) of the Interest it holds, which belongs to the entry; an
      out-record lasts at most ten days. *)
  Theorem C18_records T k pe : env_ok -> reachable T -> pit_at T k = Some pe ->
    NoDup ((fun r => fr_face (ir_rec r)) <$> pe_in pe) /\ NoDup ((fun r => fr_face (or_rec r)) <$> pe_out pe) /\
    (forall r, r ∈ pe_in pe -> key_of (ir_interest r) = k /\ fr_nonce (ir_rec r) = i_nonce (ir_interest r) /\
       fr_expiry (ir_rec r) = (fr_renewed (ir_rec r) + 1000000 * Z.min (i_lifetime (ir_interest r)) 864000000)%Z /\
       (fr_renewed (ir_rec r) <= now T)%Z) /\
    (forall r, r ∈ pe_out pe ->
       (fr_renewed (or_rec r) <= now T)%Z /\
       (fr_renewed (or_rec r) <= fr_expiry (or_rec r) <= fr_renewed (or_rec r) + 1000000 * 864000000)%Z).
  Proof.
    intros He R Hk. pose proof (C16_key T k pe He R Hk) as Hkey. destruct He as [Hs Hr]. apply (reachable_inv sort cs st Hs Hr) in R.
    rewrite pit_at_pview in Hk. apply (pview_Some _ _ _ _ _ (ti_pit _ R)) in Hk as [(n & Hn) _].
    destruct (pi_ok _ _ _ (ti_pit _ R) n pe Hn) as [H1 H2 H3 H4]. split; [done|]. split; [done|]. split.
    - intros r Hr'. destruct (H3 r Hr') as (Ha & Hb & Hc & Hd). split; [by rewrite Ha|]. split; [done|]. split; [|done].
      rewrite Hc. unfold ms_ns, TEN_DAYS. lia.
    - intros r Hr'. destruct (H4 r Hr') as (Ha & Hb & Hc). unfold ms_ns, TEN_DAYS in *. lia.
  Qed.

  (** C18: an Interest arriving from (sent to) a face creates or renews that face's
      record with its nonce and a deadline of now plus its lifetime, capped at ten days;
      records of other faces and other entries do not change. *)
  Theorem C18_in_record T k f i : env_ok -> reachable T -> is_Some (pit_at T k) -> key_of i = k -> (0 <= i_lifetime i)%Z ->
    exists T' pe pe' r, tab_step sort cs st T (OPitIn k f i) = Some T' /\ pit_at T k = Some pe /\ pit_at T' k = Some pe' /\
      find_in f (pe_in pe') = Some r /\ ir_interest r = i /\ fr_face (ir_rec r) = f /\ fr_nonce (ir_rec r) = i_nonce i /\
      fr_renewed (ir_rec r) = now T /\ fr_expiry (ir_rec r) = (now T + 1000000 * Z.min (i_lifetime i) 864000000)%Z /\
      (forall g, g <> f -> find_in g (pe_in pe') = find_in g (pe_in pe)) /\ pe_out pe' = pe_out pe /\
      (forall k', k' <> k -> pit_at T' k' = pit_at T k').
  Proof.
    intros He R [pe Hk] Hkey Hl. pose proof (C18_records T k pe He R Hk) as (Hni & _). pose proof (C16_key T k pe He R Hk) as Hpk.
    destruct He as [Hs Hr]. apply (reachable_inv sort cs st Hs Hr) in R.
    destruct (pit_upd_ok k (fun e => set_pe_in (insert_or_update_in f i (now T) (pe_in e)) e) T (ti_tree _ R) (ti_pit _ R)) as (l & _ & _ & _ & H & _).
    { by eexists. } { done. } { intros pe0 E0. rewrite Hk in E0. injection E0 as <-. apply pe_ok_in; [done|]. unfold pe_key. congruence. }
    destruct (insert_in_ok f i (now T) _ Hni) as (_ & Hf & _).
    eexists _, pe, _, _. split; [done|]. split; [done|]. split; [rewrite H, decide_True, Hk by done; done|]. split; [simpl; rewrite Hf, decide_True by done; done|].
    split; [done|]. split; [by destruct (find_in f (pe_in pe)) as [r|] eqn:E; [apply find_in_Some in E as [_ E]|]|].
    split; [done|]. split; [done|]. split.
    { simpl. rewrite ns_cap by done. unfold ms_ns, TEN_DAYS. lia. }
    split; [intros g Hg; simpl; by rewrite Hf, decide_False|]. split; [done|]. intros k' Hk'. by rewrite H, decide_False.
  Qed.
  Theorem C18_out_record T k f i : env_ok -> reachable T -> is_Some (pit_at T k) -> key_of i = k -> (0 <= i_lifetime i)%Z ->
    exists T' pe pe' r, tab_step sort cs st T (OPitOut k f i) = Some T' /\ pit_at T k = Some pe /\ pit_at T' k = Some pe' /\
      find_out f (pe_out pe') = Some r /\ fr_face (or_rec r) = f /\ fr_nonce (or_rec r) = i_nonce i /\
      fr_renewed (or_rec r) = now T /\ fr_expiry (or_rec r) = (now T + 1000000 * Z.min (i_lifetime i) 864000000)%Z /\
      (forall g, g <> f -> find_out g (pe_out pe') = find_out g (pe_out pe)) /\ pe_in pe' = pe_in pe /\
      (forall k', k' <> k -> pit_at T' k' = pit_at T k') /\
      (find_out f (pe_out pe) = None -> or_nack r = None).
  Proof.
    intros He R [pe Hk] Hkey Hl. pose proof (C18_records T k pe He R Hk) as (_ & Hni & _). pose proof (C16_key T k pe He R Hk) as Hpk.
    destruct He as [Hs Hr]. apply (reachable_inv sort cs st Hs Hr) in R.
    destruct (pit_upd_ok k (fun e => set_pe_out (insert_or_update_out f i (now T) (pe_out e)) e) T (ti_tree _ R) (ti_pit _ R)) as (l & _ & _ & _ & H & _).
    { by eexists. } { done. } { intros pe0 E0. rewrite Hk in E0. injection E0 as <-. by apply pe_ok_out. }
    destruct (insert_out_ok f i (now T) _ Hni) as (_ & Hf).
    eexists _, pe, _, _. split; [done|]. split; [done|]. split; [rewrite H, decide_True, Hk by done; done|]. split; [simpl; rewrite Hf, decide_True by done; done|].
    destruct (find_out f (pe_out pe)) as [r|] eqn:E; simpl.
    - apply find_out_Some in E as [_ E]. split; [done|]. do 2 (split; [done|]). split.
      { rewrite ns_cap by done. unfold ms_ns, TEN_DAYS. lia. }
      split; [intros g Hg; by rewrite Hf, decide_False|]. split; [done|]. split; [|done]. intros k' Hk'. by rewrite H, decide_False.
    - do 3 (split; [done|]). split.
      { rewrite ns_cap by done. unfold ms_ns, TEN_DAYS. lia. }
      split; [intros g Hg; by rewrite Hf, decide_False|]. split; [done|]. split; [|done]. intros k' Hk'. by rewrite H, decide_False.
  Qed.

  (** C18: when a face is removed, no FIB nexthop and no PIT record of it remains; those of
      other faces, the other fields of PIT entries, measurements and strategy choices stay;
      a FIB entry disappears exactly if this was its only nexthop; and no dangling name tree
      entry is left. *)
  Theorem C18_face_removed T f : env_ok -> reachable T ->
    exists T', cleanup_on_face_removal f T = Some T' /\
      (forall k, match pit_at T k, pit_at T' k with
                 | Some pe, Some pe' => find_in f (pe_in pe') = None /\ find_out f (pe_out pe') = None /\
                     (forall g, g <> f -> find_in g (pe_in pe') = find_in g (pe_in pe) /\ find_out g (pe_out pe') = find_out g (pe_out pe)) /\
                     pe_interest pe' = pe_interest pe /\ pe_satisfied pe' = pe_satisfied pe /\ pe_fresh pe' = pe_fresh pe /\
                     pe_timer pe' = pe_timer pe /\ pe_info pe' = pe_info pe
                 | None, None => True
                 | _, _ => False
                 end) /\
      (forall n, match fib_at T n with
                 | None => fib_at T' n = None
                 | Some fe => (is_Some (cost_of f (fe_nexthops fe)) /\ (forall g, g <> f -> cost_of g (fe_nexthops fe) = None) -> fib_at T' n = None) /\
                     (~ (is_Some (cost_of f (fe_nexthops fe)) /\ (forall g, g <> f -> cost_of g (fe_nexthops fe) = None)) ->
                      exists fe', fib_at T' n = Some fe' /\ forall g, cost_of g (fe_nexthops fe') = if decide (g = f) then None else cost_of g (fe_nexthops fe))
                 end) /\
      same_meas T T' /\ same_sc T T' /\ now T' = now T /\ forall p, ~ dangling T' p.
  Proof.
    intros He R. pose proof R as R0. destruct He as [Hs Hr]. apply (reachable_inv sort cs st Hs Hr) in R.
    destruct (cleanup_ok f T (ti_tree _ R) (ti_fib _ R)) as (T' & H1 & H2 & _ & H3 & Hem & Hp & Hsc & Hm & Hn).
    exists T'. split; [done|]. split; [|split; [|split; [|split; [|split; [done|]]]]].
    - intros k. pose proof (pit_at_pview T' k) as E'. unfold pview in E'. rewrite H3, cleanup_pit, key_find_map in E' by done.
      pose proof (pit_at_pview T k) as E. unfold pview in E. rewrite <- E in E'. rewrite E'. destruct (pit_at T k) as [pe|] eqn:Ek; [|done].
      simpl. destruct (C18_records T k pe (conj Hs Hr) R0 Ek) as (Hi & Ho & _).
      destruct (delete_in_ok f _ Hi) as (_ & Hdi & _). destruct (delete_out_ok f _ Ho) as (_ & Hdo & _).
      split; [by rewrite Hdi, decide_True|]. split; [by rewrite Hdo, decide_True|]. split; [|done].
      intros g Hg. by rewrite Hdi, Hdo, !decide_False.
    - intros n. rewrite !fib_at_att, H3, cleanup_fib. destruct (e_fib (att T n)) as [fe|] eqn:E; [|done].
      rewrite <- fib_at_att in E. destruct (ti_fib _ R) as [F1 _]. destruct (F1 n fe E) as [_ Hok]. unfold fib_without.
      pose proof (remove_nexthop_ok f _ Hok) as Hrm. destruct (remove_nexthop f (fe_nexthops fe)) as [[|h l]|].
      + destruct Hrm as (Hf & _ & Hc & _). split; [done|]. intros Hno. exfalso. apply Hno. split; [done|].
        intros g Hg. specialize (Hc g). by rewrite decide_False in Hc.
      + destruct Hrm as (Hf & _ & Hc & _). split; [|eauto]. intros [_ Hg]. exfalso. specialize (Hc (nh_face h)).
        rewrite cost_of_cons, N.eqb_refl in Hc. case_decide; [done|]. by rewrite Hg in Hc.
      + split; [intros [[] _]; congruence|]. intros _. exists fe. split; [done|]. intros g. case_decide; congruence.
    - split; [|done]. intros n. by rewrite !meas_at_att, H3, cleanup_meas.
    - split; [|done]. intros n. by rewrite !sc_at_att, H3, cleanup_sc.
    - intros p Hd. apply (t_is_empty_iff has_tables p (tr T') (tk_closed _ H2)) in Hd. by rewrite Hem in Hd.
  Qed.

  (** C19 (partial): a Nack is recorded exactly if its nonce is that of the last Interest
      sent on the face; other out-records and entries do not change.  A fresh out-record
      has no Nack (C18_out_record).  Missing: sending another Interest on the same face
      does not clear the recorded Nack, see C19_resend_refuted. *)
  Theorem C19_nack_partial T k f nonce reason pe : env_ok -> reachable T -> pit_at T k = Some pe ->
    exists T' pe', tab_step sort cs st T (OPitNack k f nonce reason) = Some T' /\ pit_at T' k = Some pe' /\
      (forall g, g <> f -> find_out g (pe_out pe') = find_out g (pe_out pe)) /\
      match find_out f (pe_out pe) with
      | None => find_out f (pe_out pe') = None
      | Some r => exists r', find_out f (pe_out pe') = Some r' /\ or_rec r' = or_rec r /\
                    or_nack r' = (if decide (nonce = fr_nonce (or_rec r)) then Some reason else or_nack r)
      end /\
      pe_in pe' = pe_in pe /\ (forall k', k' <> k -> pit_at T' k' = pit_at T k').
  Proof.
    intros He R Hk. destruct He as [Hs Hr]. apply (reachable_inv sort cs st Hs Hr) in R.
    destruct (pit_upd_ok k (fun e => set_pe_out (out_nack f nonce reason (pe_out e)) e) T (ti_tree _ R) (ti_pit _ R)) as (l & _ & _ & _ & H & _).
    { by eexists. } { done. } { intros pe0 E0 Hok. by apply pe_ok_nack. }
    destruct (out_nack_ok f nonce reason (pe_out pe)) as [_ Hf].
    eexists _, _. split; [done|]. split; [rewrite H, decide_True, Hk by done; done|]. split; [intros g Hg; simpl; by rewrite Hf, decide_False|].
    split; [|split; [done|]; intros k' Hk'; by rewrite H, decide_False]. simpl. rewrite Hf, decide_True by done.
    destruct (find_out f (pe_out pe)) as [r|]; [|done]. eexists. split; [done|].
    destruct (nonce =? fr_nonce (or_rec r))%N eqn:E; (split; [done|]); case_decide; simpl; try done; lia.
  Qed.
End props.

(** ** Concrete histories *)
Section example.
  Definition int (n : name) (cbp : bool) (nonce : N) (lt : Z) : interest := Interest n cbp false nonce lt None [] None None false.
  Definition i1 := int [c 1; c 2] true 11 4000.
  Definition i2 := int [c 1; c 2] false 12 900000000.
  Definition ops_pit : list tab_op :=
    [OFibInsert [c 1]; OFibAdd [c 1] 300 10; OPitInsert i1; OPitInsert i2; OPitIn (key_of i1) 301 i1; OPitIn (key_of i1) 302 i1;
     OPitOut (key_of i1) 300 i1; OPitIn (key_of i2) 301 i2; OTick 1000; OPitIn (key_of i1) 301 i1; OPitNack (key_of i1) 300 11 150]%N.
  Definition T_pit : tables := default new_tables (tab_run isort no_strategy name_eqb ops_pit new_tables).
  Lemma T_pit_reachable : tab_reachable isort no_strategy name_eqb T_pit.
  Proof. apply (tab_run_ok isort no_strategy name_eqb). by vm_compute. Qed.
  Example C16_example : env_ok isort name_eqb /\ tab_reachable isort no_strategy name_eqb T_pit /\ pit_n T_pit = 2%N /\
    is_Some (pit_at T_pit (key_of i1)) /\ is_Some (pit_at T_pit (key_of i2)) /\
    pit_find i1 T_pit = Some (pit_at T_pit (key_of i1)).
  Proof.
    split; [exact example_env|]. split; [exact T_pit_reachable|]. split; [by vm_compute|]. split; [apply is_someb_ok; by vm_compute|].
    split; [apply is_someb_ok; by vm_compute|by vm_compute].
  Qed.
  Example C17_example :
    (pe_interest <$> pit_all_data_matches (Data [c 1; c 2] [0%N] 0 false 0) T_pit) = [i1; i2] /\
    (pe_interest <$> pit_all_data_matches (Data [c 1; c 2; c 3] [0%N] 0 false 0) T_pit) = [i1].
  Proof. by vm_compute. Qed.
  Example C18_example :
    ((fun pe => (fr_face ∘ ir_rec <$> pe_in pe, fr_expiry ∘ ir_rec <$> pe_in pe)) <$> pit_at T_pit (key_of i1)) = Some ([302; 301]%N, [4000000000; 4000001000]%Z) /\
    ((fun pe => fr_expiry ∘ ir_rec <$> pe_in pe) <$> pit_at T_pit (key_of i2)) = Some [864000000000000]%Z /\
    ((fun T => (fib_n T, (fun pe => length (pe_in pe)) <$> pit_at T (key_of i1))) <$> cleanup_on_face_removal 301 T_pit) = Some (1%N, Some 1) /\
    ((fun T => fib_n T) <$> cleanup_on_face_removal 300 T_pit) = Some 0%N.
  Proof. by vm_compute. Qed.
  Example C19_example :
    ((fun pe => or_nack <$> pe_out pe) <$> pit_at T_pit (key_of i1)) = Some [Some 150%N].
  Proof. by vm_compute. Qed.

  (** C16 refuted: after the last nexthop of /1 was removed, looking up an Interest /1
      (as for an incoming Nack) trips the assertion in findOrInsert. *)
  Theorem C16_find_refuted : exists T, tab_reachable isort no_strategy name_eqb T /\ pit_find (int [c 1] false 1 4000) T = None.
  Proof.
    set (ops := [OFibInsert [c 1]; OFibAdd [c 1] 300 10; OFibRemove [c 1] 300]%N).
    exists (default new_tables (tab_run isort no_strategy name_eqb ops new_tables)). split; [|by vm_compute].
    apply (tab_run_ok isort no_strategy name_eqb). by vm_compute.
  Qed.
  (** C19 refuted: a second Interest (nonce 12) sent on face 300 after the Nack for nonce
      11 leaves the out-record with nonce 12 and the old Nack. *)
  Theorem C19_resend_refuted : exists T, tab_reachable isort no_strategy name_eqb T /\
    ((fun pe => (fun r => (fr_nonce (or_rec r), or_nack r)) <$> find_out 300 (pe_out pe)) <$> pit_at T (key_of i1))
      = Some (Some (12%N, Some 150%N)).
  Proof.
    set (ops := ops_pit ++ [OPitOut (key_of i1) 300%N (int [c 1; c 2] true 12 4000)]).
    exists (default new_tables (tab_run isort no_strategy name_eqb ops new_tables)). split.
    - apply (tab_run_ok isort no_strategy name_eqb). by vm_compute.
    - by vm_compute.
  Qed.
End example.

Print Assumptions C16_insert.
Print Assumptions C16_key.
Print Assumptions C16_erase.
Print Assumptions C16_size.
Print Assumptions C16_find_partial.
Print Assumptions C16_find_refuted.
Print Assumptions C17_matches.
Print Assumptions C18_records.
Print Assumptions C18_in_record.
Print Assumptions C18_out_record.
Print Assumptions C18_face_removed.
Print Assumptions C19_nack_partial.
Print Assumptions C19_resend_refuted.
