(** Properties C20 and C21: strategy choice.  See Fib_Props.v for what
    [tab_reachable] ranges over; [cs] is Strategy::create, [st] is areSameType. *)
From stdpp Require Import gmap.
From Verif Require Import Lib Name_Model Name_Proof Packet_Model Nt_Model Tree_Model Tree_Proof Tab_Model Tab_Spec Tab_At Tab_Fib Tab_Pit Tab_Pit2 Tab_Meas Tab_Sc Tab_Clean Tab_Run Tab_Main Fib_Props Pit_Props.

(** what an entry looks like with all strategy information dropped *)
Definition without_info_meas (m : meas_entry) : meas_entry := MeasEntry (me_name m) (me_expiry m) (me_timer m) [].
Definition no_info (pe : pit_entry) : Prop :=
  pe_info pe = [] /\ (forall r, r ∈ pe_in pe -> fr_info (ir_rec r) = []) /\ (forall r, r ∈ pe_out pe -> fr_info (or_rec r) = []).
(** same entry up to strategy information *)
Definition same_but_info (pe pe' : pit_entry) : Prop :=
  pe_interest pe' = pe_interest pe /\ pe_satisfied pe' = pe_satisfied pe /\ pe_fresh pe' = pe_fresh pe /\ pe_timer pe' = pe_timer pe /\
  ((fun r => (fr_face (ir_rec r), fr_nonce (ir_rec r), fr_renewed (ir_rec r), fr_expiry (ir_rec r), ir_interest r)) <$> pe_in pe') =
  ((fun r => (fr_face (ir_rec r), fr_nonce (ir_rec r), fr_renewed (ir_rec r), fr_expiry (ir_rec r), ir_interest r)) <$> pe_in pe) /\
  ((fun r => (fr_face (or_rec r), fr_nonce (or_rec r), fr_renewed (or_rec r), fr_expiry (or_rec r), or_nack r)) <$> pe_out pe') =
  ((fun r => (fr_face (or_rec r), fr_nonce (or_rec r), fr_renewed (or_rec r), fr_expiry (or_rec r), or_nack r)) <$> pe_out pe).
Lemma clear_pit_entry_ok pe : no_info (clear_pit_entry pe) /\ same_but_info pe (clear_pit_entry pe).
Proof.
  split; [split; [done|split]|].
  - intros r (r0 & <- & _)%elem_of_list_In%in_map_iff. done.
  - intros r (r0 & <- & _)%elem_of_list_In%in_map_iff. done.
  - do 4 (split; [done|]). split; simpl.
    + induction (pe_in pe) as [|r l IH]; [done|]. simpl. f_equal. exact IH.
    + induction (pe_out pe) as [|r l IH]; [done|]. simpl. f_equal. exact IH.
Qed.

Section props.
  Variable sort : list nexthop -> list nexthop.
  Variable cs : name -> create_result.
  Variable st : name -> name -> bool.
  Notation reachable := (tab_reachable sort cs st).
  Notation env_ok := (env_ok sort st).

  (** C20: the strategy for a name is the one chosen for its longest prefix with a choice;
      once the root has a choice (which the forwarder sets first, and which can be replaced but not
      erased) every name has one. *)
  Theorem C20_effective T n p s : env_ok -> reachable T ->
    effective n T = Some (p, s) <-> longest_defined (fun m => sc_at T m) n p /\ sc_at T p = Some s.
  Proof. intros [Hs Hr] R. apply (reachable_inv sort cs st Hs Hr) in R. exact (effective_ok n T p s (ti_tree _ R)). Qed.
  Theorem C20_total T n : env_ok -> reachable T -> is_Some (sc_at T []) -> is_Some (effective n T).
  Proof.
    intros [Hs Hr] R H0. apply (reachable_inv sort cs st Hs Hr) in R.
    destruct (effective_total n T (ti_tree _ R) H0) as (p & s & ->). done.
  Qed.
  Theorem C20_default_stays T o T' : env_ok -> reachable T -> op_ok cs T o -> tab_step sort cs st T o = Some T' ->
    is_Some (sc_at T []) -> is_Some (sc_at T' []).
  Proof.
    intros [Hs Hr] R Ho Hst H0. apply (reachable_inv sort cs st Hs Hr) in R. destruct R as [I1 I2 I3 I4 I5].
    assert (Hsame : same_sc T T' -> is_Some (sc_at T' [])) by (intros [Hx _]; by rewrite Hx).
    assert (Hpu : forall k g, is_Some (pit_at T k) -> Some (pit_upd k g T) = Some T' -> is_Some (sc_at T' [])).
    { intros k g Hk [= <-]. unfold pit_upd. rewrite sc_at_att, upd_att by (by apply pit_at_present).
      case_decide as Hd; simpl; [rewrite <- Hd|]; by rewrite <- sc_at_att. }
    destruct o; simpl in *.
    - destruct (fib_insert_ok n T I1 I2 Ho) as (T2 & E & _ & _ & H3). rewrite E in Hst. injection Hst as <-. apply Hsame. by apply (only_fib_frame _ _ _ _ H3).
    - injection Hst as <-. destruct (fib_erase_ok n T I1 I2 Ho) as (_ & _ & H3). apply Hsame. by apply (only_fib_frame _ _ _ _ H3).
    - destruct Ho as [fe Hfe]. destruct (fib_add_ok sort n f cost T Hs I1 I2 fe Hfe) as (T2 & sg & l' & E & _ & _ & H3 & _).
      rewrite E in Hst. injection Hst as <-. apply Hsame. by apply (only_fib_frame _ _ _ _ H3).
    - destruct Ho as [fe Hfe]. destruct (fib_remove_ok n f T I1 I2 fe Hfe) as (T2 & res & E & _ & _ & H3). rewrite E in Hst. injection Hst as <-.
      destruct (cost_of f (fe_nexthops fe)).
      + destruct H3 as (l' & _ & _ & _ & Ha & Hb). destruct l' as [|h l'].
        * destruct Hb as [_ Hb]; [done|]. apply Hsame. by apply (only_fib_frame _ _ _ _ Hb).
        * destruct Ha as [_ Ha]; [done|]. apply Hsame. by apply (only_fib_frame _ _ _ _ Ha).
      + destruct H3 as [_ ->]. done.
    - destruct (pit_insert_ok i T I1 I3) as (T2 & l & E & _ & _ & H3 & _). rewrite E in Hst. injection Hst as <-. apply Hsame. by apply (only_pit_frame _ _ _ _ H3).
    - destruct (pit_erase_ok k T I1 I3 Ho) as (T2 & l & E & _ & _ & H3 & _). rewrite E in Hst. injection Hst as <-. apply Hsame. by apply (only_pit_frame _ _ _ _ H3).
    - destruct Ho as (Hk & _). by eapply Hpu.
    - destruct Ho as (Hk & _). by eapply Hpu.
    - by eapply Hpu.
    - by eapply Hpu.
    - by eapply Hpu.
    - by eapply Hpu.
    - by eapply Hpu.
    - by eapply Hpu.
    - by eapply Hpu.
    - by eapply Hpu.
    - unfold meas_get in Hst. destruct (meas_get_at_ok (take (Nat.min (length n) MAX_DEPTH) n) T I1 I4) as (T1 & T2 & E1 & E2 & _ & _ & H3 & _).
      { rewrite take_length. unfold MAX_DEPTH. lia. }
      rewrite E1, E2 in Hst. injection Hst as <-. apply Hsame. by apply (only_meas_frame _ _ _ _ H3).
    - unfold meas_get_pit in Hst. set (p := if _ && _ then _ else _) in Hst.
      destruct (meas_get_at_ok p T I1 I4) as (T1 & T2 & E1 & E2 & _ & _ & H3 & _).
      { unfold p. destruct (has_digest (pk_name k) && (length (pk_name k) <=? MAX_DEPTH)%nat) eqn:E.
        - apply andb_prop in E as [_ E]. apply Nat.leb_le in E. exact E.
        - rewrite pit_nte_length. unfold nte_depth, MAX_DEPTH. lia. }
      rewrite E1, E2 in Hst. injection Hst as <-. apply Hsame. by apply (only_meas_frame _ _ _ _ H3).
    - unfold meas_get_parent in Hst. destruct n as [|c n]; [by injection Hst as <-|].
      assert (Hp : present T (take (length (c :: n) - 1) (c :: n))).
      { apply (tk_closed _ I1 (c :: n)); [by apply meas_at_present|]. eexists. symmetry. apply take_drop. }
      destruct (meas_get_nte_ok _ T I1 I4 Hp) as (T2 & E & _ & _ & H3 & _). rewrite E in Hst. injection Hst as <-. apply Hsame. by apply (only_meas_frame _ _ _ _ H3).
    - destruct Ho as [m Hm]. destruct (meas_extend_ok n lifetime T m I1 I4 Hm) as (T2 & E & _ & _ & H3 & _). rewrite E in Hst. injection Hst as <-.
      apply Hsame. by apply (only_meas_frame _ _ _ _ H3).
    - injection Hst as <-. rewrite sc_at_att, upd_att by (by apply meas_at_present). case_decide as Hd; simpl; [rewrite <- Hd|]; by rewrite <- sc_at_att.
    - destruct Ho as [H _]. rewrite H in H0. by destruct H0.
    - destruct (sc_insert_ok cs st Hr p req T I1 I5 Ho) as (T2 & res & E & _ & _ & _ & _ & H4 & H5). rewrite E in Hst. injection Hst as <-.
      destruct res; [|by rewrite H4..]. destruct (H5 eq_refl) as (s & _ & Hx & _). rewrite Hx. case_decide; done.
    - destruct Ho as [_ Hp]. destruct (sc_erase_ok cs st Hr p T I1 I5 H0 Hp) as (T2 & E & _ & _ & _ & H4 & _). rewrite E in Hst. injection Hst as <-.
      rewrite H4. by rewrite decide_False.
    - destruct (cleanup_ok f T I1 I2) as (T2 & E & _ & _ & H3 & _). rewrite E in Hst. injection Hst as <-. by rewrite sc_at_att, H3, cleanup_sc, <- sc_at_att.
    - injection Hst as <-. destruct (tick_ok d T I1 I4 Ho) as (_ & _ & _ & _ & H5 & _). rewrite sc_at_att. destruct (H5 []) as (_ & _ & ->). by rewrite <- sc_at_att.
  Qed.

  (** C20: setting a strategy changes the choice at that prefix only; it fails, changing
      nothing, exactly if the prefix is too deep or the strategy cannot be made.  So only names
      whose longest prefix with a choice becomes that prefix change strategy. *)
  Theorem C20_insert T p req : env_ok -> reachable T -> is_Some (sc_at T []) ->
    exists T' res, sc_insert cs st p req T = Some (T', res) /\
      res = (if (32 <? length p)%nat then SC_DEPTH_EXCEEDED else
             match cs req with Created _ => SC_OK | NotRegistered => SC_NOT_REGISTERED | CreateException => SC_EXCEPTION end) /\
      (res <> SC_OK -> T' = T) /\
      (res = SC_OK -> exists s, cs req = Created s /\ forall q, sc_at T' q = if decide (q = p) then Some s else sc_at T q).
  Proof.
    intros [Hs Hr] R H0. apply (reachable_inv sort cs st Hs Hr) in R.
    destruct (sc_insert_ok cs st Hr p req T (ti_tree _ R) (ti_sc _ R) H0) as (T' & res & E & _ & _ & _ & H3 & H4 & H5).
    exists T', res. split; [done|]. split; [done|]. split; [done|]. intros Hok. destruct (H5 Hok) as (s & ? & ? & _). by exists s.
  Qed.
  (** C20: unsetting removes the choice at that prefix only (names below fall back to the
      parent's choice by C20_effective). *)
  Theorem C20_erase T p : env_ok -> reachable T -> is_Some (sc_at T []) -> p <> [] ->
    exists T', sc_erase st p T = Some T' /\ forall q, sc_at T' q = if decide (q = p) then None else sc_at T q.
  Proof.
    intros [Hs Hr] R H0 Hp. apply (reachable_inv sort cs st Hs Hr) in R.
    destruct (sc_erase_ok cs st Hr p T (ti_tree _ R) (ti_sc _ R) H0 Hp) as (T' & E & _ & _ & _ & H4 & _). by exists T'.
  Qed.
  (** C20: size() is the number of choices. *)
  Theorem C20_size T : env_ok -> reachable T -> counter_ok (sc_n T) (fun n => sc_at T n).
  Proof. intros [Hs Hr] R. apply (reachable_inv sort cs st Hs Hr) in R. exact (ti_sc _ R). Qed.

  (** C21 (partial), [T] before and [T'] after a set or unset: a measurements entry at a name
      whose strategy type changed loses its strategy information and all others are
      untouched; the same for PIT entries.  Missing: PIT entries whose name ends in an implicit
      digest or has more than 32 components are excluded, since changeStrategy
      looks at them under a shorter name (see C21_digest_refuted). *)
  Definition info_dropped_exactly (T T' : tables) : Prop :=
    (forall n p s p' s', effective n T = Some (p, s) -> effective n T' = Some (p', s') ->
       meas_at T' n = (if st s s' then meas_at T n else without_info_meas <$> meas_at T n) /\
       fib_at T' n = fib_at T n) /\
    (forall k p s p' s', pit_nte (pk_name k) = pk_name k ->
       effective (pk_name k) T = Some (p, s) -> effective (pk_name k) T' = Some (p', s') ->
       match pit_at T k, pit_at T' k with
       | Some pe, Some pe' => (st s s' = true -> pe' = pe) /\ (st s s' = false -> no_info pe' /\ same_but_info pe pe')
       | None, None => True
       | _, _ => False
       end).
  Lemma info_rule_dropped T T' : tree_ok T -> tree_ok T' -> info_rule st T T' -> info_dropped_exactly T T'.
  Proof.
    intros Ht Ht' H. split.
    - intros n p s p' s' E E'. apply (effective_ok n T p s Ht) in E. apply (effective_ok n T' p' s' Ht') in E'.
      destruct (H n) as (b & Hb & Ha). rewrite !meas_at_att, !fib_at_att, Ha. rewrite (Hb s s'); [|by exists p|by exists p'].
      by destruct (st s s').
    - intros k p s p' s' Hk E E'. apply (effective_ok _ T p s Ht) in E. apply (effective_ok _ T' p' s' Ht') in E'.
      destruct (H (pk_name k)) as (b & Hb & Ha). specialize (Hb s s'). rewrite (Hb ltac:(by exists p) ltac:(by exists p')) in Ha.
      pose proof (pit_at_pview T k) as P. pose proof (pit_at_pview T' k) as P'. unfold pview in P, P'. rewrite Hk in P, P'. rewrite Ha in P'.
      destruct (st s s'); simpl in P'.
      + rewrite <- P in P'. rewrite P'. by destruct (pit_at T k).
      + rewrite key_find_map in P' by done. rewrite <- P in P'. rewrite P'. destruct (pit_at T k) as [pe|]; [|done]. simpl.
        split; [done|]. intros _. apply clear_pit_entry_ok.
  Qed.
  Theorem C21_insert_partial T T' p req res : env_ok -> reachable T -> is_Some (sc_at T []) ->
    sc_insert cs st p req T = Some (T', res) -> info_dropped_exactly T T'.
  Proof.
    intros [Hs Hr] R H0 E. apply (reachable_inv sort cs st Hs Hr) in R.
    destruct (sc_insert_ok cs st Hr p req T (ti_tree _ R) (ti_sc _ R) H0) as (T2 & res2 & E2 & Ht2 & _ & _ & _ & H4 & H5).
    rewrite E in E2. injection E2 as <- <-. destruct res.
    - destruct (H5 eq_refl) as (s & _ & _ & Hx). apply info_rule_dropped; [apply R|done|done].
    - rewrite H4 by done. apply info_rule_dropped; [apply R|apply R|]. intros q. exists true. split; [|by rewrite sc_at_att, set_sc_eta].
      intros s s' (x & Hx) (y & Hy). destruct (governs_fun _ _ _ _ _ _ Hx Hy) as [_ ->]. by rewrite Hr.
    - rewrite H4 by done. apply info_rule_dropped; [apply R|apply R|]. intros q. exists true. split; [|by rewrite sc_at_att, set_sc_eta].
      intros s s' (x & Hx) (y & Hy). destruct (governs_fun _ _ _ _ _ _ Hx Hy) as [_ ->]. by rewrite Hr.
    - rewrite H4 by done. apply info_rule_dropped; [apply R|apply R|]. intros q. exists true. split; [|by rewrite sc_at_att, set_sc_eta].
      intros s s' (x & Hx) (y & Hy). destruct (governs_fun _ _ _ _ _ _ Hx Hy) as [_ ->]. by rewrite Hr.
  Qed.
  Theorem C21_erase_partial T T' p : env_ok -> reachable T -> is_Some (sc_at T []) -> p <> [] ->
    sc_erase st p T = Some T' -> info_dropped_exactly T T'.
  Proof.
    intros [Hs Hr] R H0 Hp E. apply (reachable_inv sort cs st Hs Hr) in R.
    destruct (sc_erase_ok cs st Hr p T (ti_tree _ R) (ti_sc _ R) H0 Hp) as (T2 & E2 & Ht2 & _ & _ & _ & H5).
    rewrite E in E2. injection E2 as <-. apply info_rule_dropped; [apply R|done|done].
  Qed.
End props.

Section example.
  (** a registry: any name of one component with an even first byte is a strategy, and versions
      (the second component) do not matter for the type *)
  Definition ex_cs (n : name) : create_result := match n with [_] | [_; _] => Created n | [] => CreateException | _ => NotRegistered end.
  Definition ex_st (a b : name) : bool := name_eqb (take 1 a) (take 1 b).
  Lemma ex_env : env_ok isort ex_st.
  Proof. split; [exact isort_ok|]. intros s. apply name_eqb_refl. Qed.
  Definition ops_sc : list tab_op :=
    [OScDefault [c 100]; OScInsert [c 1] [c 101]; OMeasGet [c 1; c 2]; OMeasInfo [c 1; c 2] [(1%N, [5%Z])]; OMeasGet [c 3]; OMeasInfo [c 3] [(1%N, [6%Z])];
     OPitInsert i1; OPitIn (key_of i1) 301%N i1; OPitInInfo (key_of i1) 301%N [(2%N, [7%Z])]; OPitInfo (key_of i1) [(3%N, [8%Z])]].
  Definition T_sc : tables := default new_tables (tab_run isort ex_cs ex_st ops_sc new_tables).
  Lemma T_sc_reachable : tab_reachable isort ex_cs ex_st T_sc.
  Proof. apply (tab_run_ok isort ex_cs ex_st). by vm_compute. Qed.
  Example C20_example : env_ok isort ex_st /\ tab_reachable isort ex_cs ex_st T_sc /\ is_Some (sc_at T_sc []) /\
    effective [c 1; c 2; c 3] T_sc = Some ([c 1], [c 101]) /\ effective [c 2] T_sc = Some ([], [c 100]) /\ sc_n T_sc = 2%N /\
    (option_map (fun T => effective [c 1; c 2; c 3] T) (sc_erase ex_st [c 1] T_sc)) = Some (Some ([], [c 100])).
  Proof. split; [exact ex_env|]. split; [exact T_sc_reachable|]. split; [apply is_someb_ok; by vm_compute|]. by vm_compute. Qed.
  (** changing /1 to another strategy drops the information under /1 and keeps that of /3;
      changing to another version of the same strategy keeps everything *)
  Example C21_example :
    option_map (fun x => (me_info <$> meas_at x.1 [c 1; c 2], me_info <$> meas_at x.1 [c 3], pe_info <$> pit_at x.1 (key_of i1)))
      (sc_insert ex_cs ex_st [c 1] [c 102] T_sc) = Some (Some [], Some [(1%N, [6%Z])], Some []) /\
    option_map (fun x => (me_info <$> meas_at x.1 [c 1; c 2], pe_info <$> pit_at x.1 (key_of i1)))
      (sc_insert ex_cs ex_st [c 1] [c 101; c 1] T_sc) = Some (Some [(1%N, [5%Z])], Some [(3%N, [8%Z])]).
  Proof. by vm_compute. Qed.

  (** C21 refuted for digest names: the strategy of the PIT entry /1/2/<digest> changes when a
      strategy is set at /1/2/<digest>, but the entry keeps its old strategy information. *)
  Definition dg : comp := (T_IMPLICIT_DIGEST, replicate 32 7%N).
  Definition i3 := int [c 1; c 2; dg] false 9 4000.
  Theorem C21_digest_refuted : exists T, tab_reachable isort ex_cs ex_st T /\ is_Some (sc_at T []) /\
    (snd <$> effective (i_name i3) T) = Some [c 100] /\ ex_st [c 100] [c 102] = false /\
    match sc_insert ex_cs ex_st [c 1; c 2; dg] [c 102] T with
    | Some (T', SC_OK) => (snd <$> effective (i_name i3) T') = Some [c 102] /\ (pe_info <$> pit_at T' (key_of i3)) = Some [(3%N, [8%Z])]
    | _ => False
    end.
  Proof.
    set (ops := [OScDefault [c 100]; OPitInsert i3; OPitInfo (key_of i3) [(3%N, [8%Z])]]).
    exists (default new_tables (tab_run isort ex_cs ex_st ops new_tables)). split.
    - apply (tab_run_ok isort ex_cs ex_st). by vm_compute.
    - split; [apply is_someb_ok; by vm_compute|]. by vm_compute.
  Qed.
End example.

Print Assumptions C20_effective.
Print Assumptions C20_total.
Print Assumptions C20_default_stays.
Print Assumptions C20_insert.
Print Assumptions C20_erase.
Print Assumptions C20_size.
Print Assumptions C21_insert_partial.
Print Assumptions C21_erase_partial.
Print Assumptions C21_digest_refuted.
