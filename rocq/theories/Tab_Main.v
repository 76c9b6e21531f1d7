From stdpp Require Import gmap.
From Verif Require Import Lib Name_Model Name_Proof Packet_Model Nt_Model Nt_Spec Nt_Tree Tree_Model Tree_Proof Tab_Model Tab_Spec Tab_At Tab_Fib Tab_Pit Tab_Pit2 Tab_Meas Tab_Sc Tab_Clean Tab_Run.

(** ** enumeration *)
Lemma pit_entries_ok T : pit_ok T ->
  NoDup (pe_key <$> pit_entries T) /\ (forall pe, pe ∈ pit_entries T <-> pit_at T (pe_key pe) = Some pe).
Proof.
  intros P. pose proof P as [P1 P2 P3 P4].
  assert (Hatt : forall n e, (n, e) ∈ map_to_list (tr T) -> att T n = e).
  { intros n e He. apply elem_of_map_to_list in He. unfold att. by rewrite He. }
  assert (Hin : forall pe, pe ∈ pit_entries T <-> exists n, pe ∈ e_pit (att T n)).
  { intros pe. unfold pit_entries. rewrite elem_of_list_In, in_concat. split.
    - intros (l & Hl & Hpe). apply in_map_iff in Hl as ([n e] & <- & Hne). apply elem_of_list_In in Hne, Hpe.
      apply Hatt in Hne. subst e. by exists n.
    - intros (n & Hn). unfold att in Hn. destruct (tr T !! n) as [e|] eqn:E; [|by apply elem_of_nil in Hn].
      exists (e_pit e). split; [|by apply elem_of_list_In]. apply in_map_iff. exists (n, e). split; [done|].
      by apply elem_of_list_In, elem_of_map_to_list. }
  split.
  - unfold pit_entries. assert (Hs : forall n e, (n, e) ∈ map_to_list (tr T) -> att T n = e) by done.
    pose proof (NoDup_fst_map_to_list (tr T)) as Hnd. revert Hs Hnd. clear Hin Hatt. generalize (map_to_list (tr T)) as l.
    induction l as [|[n e] l IH]; intros Hs Hnd; [constructor|]. change ((((n, e) :: l)).*1) with (n :: l.*1) in Hnd.
    apply NoDup_cons in Hnd as [Hn Hnd]. simpl. rewrite fmap_app. apply NoDup_app. split; [|split].
    + rewrite <- (Hs n e) by left. apply P2.
    + intros k (pe & -> & Hpe)%elem_of_list_fmap (pe' & Hk & Hpe')%elem_of_list_fmap.
      apply elem_of_list_In, in_concat in Hpe' as (l' & Hl' & Hpe'). apply in_map_iff in Hl' as ([n' e'] & <- & Hn').
      apply elem_of_list_In in Hn', Hpe'. apply Hn. rewrite <- (Hs n e) in Hpe by left. rewrite <- (Hs n' e') in Hpe' by by right.
      apply P1 in Hpe, Hpe'. rewrite <- Hk in Hpe'. replace n with n' by congruence. change n' with ((n', e').1). by apply elem_of_list_fmap_1.
    + apply IH; [|done]. intros n' e' H. apply Hs. by right.
  - intros pe. rewrite Hin. rewrite pit_at_pview. rewrite (pview_Some _ _ _ _ _ P). tauto.
Qed.

Lemma fib_entries_ok T : fib_ok T ->
  NoDup (fe_prefix <$> fib_entries T) /\ (forall fe, fe ∈ fib_entries T <-> fib_at T (fe_prefix fe) = Some fe).
Proof.
  intros [F1 F2].
  assert (Hin : forall fe, fe ∈ fib_entries T <-> exists n, fib_at T n = Some fe).
  { intros fe. unfold fib_entries. rewrite elem_of_list_omap. split.
    - intros ([n e] & Hne & He). apply elem_of_map_to_list in Hne. exists n. unfold fib_find. by rewrite Hne.
    - intros (n & Hn). unfold fib_find in Hn. destruct (tr T !! n) as [e|] eqn:E; [|done]. exists (n, e).
      split; [by apply elem_of_map_to_list|done]. }
  split.
  - unfold fib_entries. pose proof (NoDup_fst_map_to_list (tr T)) as Hnd.
    assert (Hs : forall n e fe, (n, e) ∈ map_to_list (tr T) -> e_fib e = Some fe -> fe_prefix fe = n).
    { intros n e fe Hne%elem_of_map_to_list He. apply (F1 n fe). unfold fib_find. by rewrite Hne. }
    revert Hnd Hs. clear Hin. generalize (map_to_list (tr T)) as l. induction l as [|[n e] l IH]; intros Hnd Hs; [constructor|].
    change ((((n, e) :: l)).*1) with (n :: l.*1) in Hnd. apply NoDup_cons in Hnd as [Hn Hnd]. simpl.
    assert (Hs' : forall n e fe, (n, e) ∈ l -> e_fib e = Some fe -> fe_prefix fe = n) by (intros n' e' fe' ?; apply Hs; by right).
    destruct (e_fib e) as [fe|] eqn:Ef; [|by apply IH]. rewrite fmap_cons. constructor; [|by apply IH].
    intros (fe' & Hfe & ([n' e'] & Hne & He')%elem_of_list_omap)%elem_of_list_fmap. apply Hn.
    rewrite <- (Hs n e fe) by (done || left). rewrite Hfe, (Hs' n' e' fe') by done. change n' with ((n', e').1). by apply elem_of_list_fmap_1.
  - intros fe. rewrite Hin. split; [|eauto]. intros (n & Hn). destruct (F1 n fe Hn) as [-> _]. done.
Qed.

(** the list of all entries has as many as the counter shows *)
Lemma counts_list {K V} (f : K -> option V) (key : V -> K) (l : list V) k :
  (forall n v, f n = Some v -> key v = n) -> NoDup (key <$> l) -> (forall v, v ∈ l <-> f (key v) = Some v) -> counts f k -> k = length l.
Proof.
  intros Hk Hn Hl (ns & Hns & <- & Hx). rewrite <- (fmap_length key l). apply Permutation_length, NoDup_Permutation; [done|done|].
  intros n. rewrite Hx, elem_of_list_fmap. split.
  - intros [v Hv]. exists v. pose proof (Hk _ _ Hv). subst. split; [done|]. by apply Hl.
  - intros (v & -> & Hv%Hl). by eexists.
Qed.

(** ** the new nexthop, when its cost is the largest *)
Lemma sorted_last_max (l l' : list nexthop) h : StronglySorted cost_le l' -> l' ≡ₚ l ++ [h] ->
  (forall x, x ∈ l -> (nh_cost x < nh_cost h)%N) -> l' !! length l = Some h.
Proof.
  intros Hs Hp Hx. assert (Hlen : length l' = S (length l)) by (rewrite Hp, app_length; simpl; lia).
  destruct (lookup_lt_is_Some_2 l' (length l)) as [y Hy]; [lia|]. rewrite Hy. f_equal.
  assert (Hyin : y ∈ l ++ [h]) by (rewrite <- Hp; by eapply elem_of_list_lookup_2).
  apply elem_of_app in Hyin as [Hyl|Hyh]; [exfalso|by apply elem_of_list_singleton in Hyh].
  assert (Hh : h ∈ l') by (rewrite Hp; apply elem_of_app; right; left).
  apply elem_of_list_lookup in Hh as [i Hi]. assert (Hne : i <> length l).
  { intros ->. rewrite Hy in Hi. injection Hi as <-. specialize (Hx _ Hyl). lia. }
  assert (Hlt : i < length l) by (apply lookup_lt_Some in Hi; lia).
  assert (Hle : cost_le h y).
  { clear -Hs Hi Hy Hlt. revert i Hi Hlt y Hy. generalize (length l) as j. intros j i Hi Hlt y Hy. revert i j Hi Hlt Hy.
    induction Hs as [|a l1 Hs IH Ha]; intros i j Hi Hlt Hy; [done|]. destruct j as [|j]; [lia|]. destruct i as [|i]; simpl in *.
    - injection Hi as ->. rewrite Forall_forall in Ha. apply Ha. by eapply elem_of_list_lookup_2.
    - apply (IH i j); [done|lia|done]. }
  unfold cost_le in Hle. specialize (Hx _ Hyl). lia.
Qed.
Lemma signal_max sort n f c T fe T' sg : sort_ok sort -> fib_at T n = Some fe -> fe_prefix fe = n ->
  cost_of f (fe_nexthops fe) = None -> (forall h, h ∈ fe_nexthops fe -> (nh_cost h < c)%N) ->
  fib_add_nexthop sort n f c T = Some (T', sg) -> sg = Some (n, NextHop f c).
Proof.
  intros Hs Hfe Hpre Hc Hm. unfold fib_add_nexthop, fib_find in *. destruct (tr T !! n) as [e|]; [|done]. rewrite Hfe.
  unfold add_or_update_nexthop. apply cost_of_None, find_nexthop_None in Hc. rewrite Hc.
  destruct (Hs (fe_nexthops fe ++ [NextHop f c])) as [Hp Hss].
  rewrite (sorted_last_max (fe_nexthops fe) _ (NextHop f c) Hss Hp) by done. intros [= _ <-]. by rewrite Hpre.
Qed.

(** ** running histories *)
Section run.
  Variable sort_nexthops : list nexthop -> list nexthop.
  Variable create_strategy : name -> create_result.
  Variable same_type : name -> name -> bool.

  Definition is_someb {A} (o : option A) : bool := match o with Some _ => true | None => false end.
  Lemma is_someb_ok {A} (o : option A) : is_someb o = true -> is_Some o.
  Proof. destruct o; [eauto|done]. Qed.
  Definition op_okb (T : tables) (o : tab_op) : bool :=
    match o with
    | OFibInsert n => (length n <=? 32)%nat
    | OFibErase n | OFibAdd n _ _ | OFibRemove n _ => is_someb (fib_at T n)
    | OPitInsert i => true
    | OPitErase k | OPitDelIn k _ | OPitDelOut k _ | OPitClearIn k | OPitNack k _ _ _
    | OPitInfo k _ | OPitInInfo k _ _ | OPitOutInfo k _ _ | OPitMeta k _ _ _ | OMeasGetPit k => is_someb (pit_at T k)
    | OPitIn k f i | OPitOut k f i => is_someb (pit_at T k) && keyb (key_of i) k && (0 <=? i_lifetime i)%Z
    | OMeasGet n => true
    | OMeasParent n | OMeasExtend n _ | OMeasInfo n _ => is_someb (meas_at T n)
    | OScDefault req => negb (is_someb (sc_at T [])) && match create_strategy req with Created _ => true | _ => false end
    | OScInsert _ _ => is_someb (sc_at T [])
    | OScErase p => is_someb (sc_at T []) && negb (name_eqb p [])
    | OFaceGone f => true
    | OTick d => (0 <=? d)%Z
    end.
  Lemma op_okb_ok T o : op_okb T o = true -> op_ok create_strategy T o.
  Proof.
    destruct o; simpl; try done; try (by apply is_someb_ok).
    - apply Nat.leb_le.
    - intros [[H1 H2]%andb_prop H3]%andb_prop. split; [by apply is_someb_ok|]. split; [by apply keyb_eq|lia].
    - intros [[H1 H2]%andb_prop H3]%andb_prop. split; [by apply is_someb_ok|]. split; [by apply keyb_eq|lia].
    - intros [H1 H2]%andb_prop. split; [by destruct (sc_at T [])|]. destruct (create_strategy req); eauto; done.
    - intros [H1 H2]%andb_prop. split; [by apply is_someb_ok|]. intros ->. done.
    - apply Z.leb_le.
  Qed.
  Fixpoint tab_run (ops : list tab_op) (T : tables) : option tables :=
    match ops with
    | [] => Some T
    | o :: ops' => if op_okb T o then match tab_step sort_nexthops create_strategy same_type T o with
                                      | Some T' => tab_run ops' T'
                                      | None => None
                                      end else None
    end.
  Lemma tab_run_reachable ops T T' : tab_reachable sort_nexthops create_strategy same_type T ->
    tab_run ops T = Some T' -> tab_reachable sort_nexthops create_strategy same_type T'.
  Proof.
    revert T. induction ops as [|o ops IH]; intros T R; simpl; [by intros [= <-]|].
    destruct (op_okb T o) eqn:E; [|done]. destruct (tab_step _ _ _ T o) as [T1|] eqn:Es; [|done].
    apply IH. eapply tab_reach_step; [done| |done]. by apply op_okb_ok.
  Qed.
  Lemma tab_run_ok ops : is_someb (tab_run ops new_tables) = true ->
    tab_reachable sort_nexthops create_strategy same_type (default new_tables (tab_run ops new_tables)).
  Proof.
    intros H%is_someb_ok. destruct H as [T' H]. rewrite H. simpl. by apply (tab_run_reachable ops new_tables); [constructor|].
  Qed.
End run.
