(** Subtree enumeration visits exactly the selected entries, in pre-order. *)
From stdpp Require Import gmap.
From Verif Require Import Lib Name_Model Name_Proof Nt_Model Nt_Spec Nt_Hash Nt_Tree Nt_Ops.

Section enum.
  Context {E : Type} (e0 : E) (hc : comp -> N) (opts : ht_options).
  Notation node := (node (E:=E)).
  Notation hashtable := (hashtable (E:=E)).
  Hypothesis Hopts : options_ok opts.
  Let Hmin : (0 < o_min opts)%N := proj1 Hopts.
  Notation nt_inv := (nt_inv hc opts).
  Variable t : hashtable.
  Hypothesis Inv : nt_inv t.
  Variable sel : node -> bool * bool.
  Variable ref : name.
  Notation m := (abs t).

  Fixpoint visit (d : nat) (n : name) : list name :=
    match m !! n with
    | None => []
    | Some x =>
        (if (sel x).1 then [n] else []) ++
        (if (sel x).2 then match d with O => [] | S d' => concat (map (visit d') (n_children x)) end else [])
    end.
  Definition below (d : nat) (n : name) (wc : bool) : list name :=
    match m !! n with
    | None => []
    | Some x => if wc then match d with O => [] | S d' => concat (map (visit d') (n_children x)) end else []
    end.

  Definition runs (n : name) (wc : bool) (L : list name) : Prop :=
    exists f0, forall fuel, f0 <= fuel -> pe_run e0 hc opts fuel sel ref n wc t = Some L.
  Definition runs_step (st : pe_step) (L : list name) : Prop :=
    match st with
    | PVisit k wc => exists L', L = k :: L' /\ runs k wc L'
    | PGo k wc => runs k wc L
    | PEnd => L = []
    | PBad => False
    end.

  Lemma runs_intro n wc L : runs_step (pe_loop_body e0 hc opts sel ref n wc t) L -> runs n wc L.
  Proof.
    intros H. destruct (pe_loop_body e0 hc opts sel ref n wc t) as [k w|k w| |] eqn:Eb; simpl in H.
    - destruct H as (L' & -> & f0 & H). exists (S f0). intros [|f] Hf; [lia|]. cbn [pe_run]. rewrite Eb.
      rewrite H by lia. done.
    - destruct H as (f0 & H). exists (S f0). intros [|f] Hf; [lia|]. cbn [pe_run]. rewrite Eb.
      rewrite H by lia. done.
    - exists 1. intros [|f] Hf; [lia|]. cbn [pe_run]. by rewrite Eb, H.
    - done.
  Qed.

  Lemma after_first_app (c : name) pre post : c ∉ pre -> after_first c (pre ++ c :: post) = Some post.
  Proof.
    induction pre as [|d pre IH]; simpl; intros Hn; [by rewrite name_eqb_refl|].
    destruct (name_eqb c d) eqn:Ed; [apply name_eqb_eq in Ed; subst; mem|]. apply IH. mem.
  Qed.

  (** stepping from a child whose subtree is finished goes on with its siblings *)
  Lemma body_sib n x pre c post : m !! n = Some x -> n_children x = pre ++ c :: post -> c <> ref ->
    pe_loop_body e0 hc opts sel ref c false t = pe_siblings e0 hc opts sel post n t.
  Proof.
    intros Hx Hch Hcr. destruct Inv as [I T].
    assert (c ∈ n_children x) as Hin by (rewrite Hch; mem).
    apply (ti_child _ T _ _ _ Hx) in Hin as ([cx Hcx] & Hc0 & Hcp).
    pose proof (ti_child_nd _ T _ _ Hx) as Hnd. rewrite Hch in Hnd.
    assert (after_first c (n_children x) = Some post) as Haf.
    { rewrite Hch. apply after_first_app. apply NoDup_app in Hnd as (_ & Hd & _). intros Hpre. apply (Hd c Hpre). mem. }
    assert (name_eqb c ref = false) as Hne.
    { destruct (name_eqb c ref) eqn:Ee; [|done]. by apply name_eqb_eq in Ee. }
    unfold pe_loop_body. rewrite deref_abs, Hcx by done.
    rewrite (ti_parent _ T _ _ Hcx), decide_False, Hcp by done. rewrite deref_abs, Hx by done.
    rewrite Haf, Hne. by destruct (n_children cx).
  Qed.

  Lemma visit_below d c cx : m !! c = Some cx ->
    visit d c = (if (sel cx).1 then [c] else []) ++ below d c (sel cx).2.
  Proof. intros Hc. unfold below. destruct d; simpl; rewrite Hc; done. Qed.

  Lemma runs_down d : forall n wc L, 32 < length n + d -> is_Some (m !! n) -> ref `prefix_of` n ->
    runs n false L -> runs n wc (below d n wc ++ L).
  Proof.
    induction d as [|d IH]; intros n wc L Hd [x Hx] Hp HL.
    { apply (ti_depth _ (proj2 Inv)) in Hx. lia. }
    unfold below. rewrite Hx. destruct wc; [|done].
    assert (forall pre post, n_children x = pre ++ post ->
      runs_step (pe_siblings e0 hc opts sel post n t) (concat (map (visit d) post) ++ L) /\
      match post with
      | [] => True
      | c :: post' => exists cx, m !! c = Some cx /\
          forall wc, runs c wc (below d c wc ++ concat (map (visit d) post') ++ L)
      end) as Hsib.
    { intros pre post. revert pre. induction post as [|c post IHp]; intros pre Hch; cbn [pe_siblings map concat].
      - split; [exact HL|done].
      - assert (c ∈ n_children x) as Hin by (rewrite Hch; mem).
        apply (ti_child _ (proj2 Inv) _ _ _ Hx) in Hin as ([cx Hcx] & Hc0 & Hcp).
        rewrite deref_abs, Hcx by (apply Inv || done).
        assert (length c = S (length n)) as Hlc.
        { rewrite <- Hcp, par_length. destruct c; simpl; [done|lia]. }
        assert (n `prefix_of` c) as Hnc by (rewrite <- Hcp; apply par_prefix).
        specialize (IHp (pre ++ [c])). rewrite <- app_assoc in IHp. destruct (IHp Hch) as [IHs _].
        assert (forall wc, runs c wc (below d c wc ++ concat (map (visit d) post) ++ L)) as Hrun.
        { intros wc. apply IH; [lia|eauto|by etrans|]. apply runs_intro. 
          rewrite (body_sib n x pre c post); [done|done|done|].
          intros ->. apply prefix_length in Hp. lia. }
        split; [|eauto].
        rewrite (visit_below d c cx Hcx). specialize (Hrun (sel cx).2).
        destruct (sel cx) as [ws wc'] eqn:Es. simpl in *.
        destruct ws; simpl.
        + eexists. split; [done|]. by rewrite <- app_assoc.
        + destruct wc'; simpl.
          * by rewrite <- app_assoc.
          * unfold below. rewrite Hcx. done. }
    destruct (n_children x) as [|c post] eqn:Hch.
    { simpl. destruct HL as [f0 HL]. exists f0. intros fuel Hf. rewrite <- (HL fuel Hf).
      destruct fuel as [|fuel]; [done|]. cbn [pe_run]. 
      replace (pe_loop_body e0 hc opts sel ref n true t) with (pe_loop_body e0 hc opts sel ref n false t); [done|].
      unfold pe_loop_body. rewrite deref_abs, Hx by (apply Inv || done). by rewrite Hch. }
    apply runs_intro. unfold pe_loop_body. rewrite deref_abs, Hx by (apply Inv || done). rewrite Hch.
    destruct (Hsib [] (c :: post) eq_refl) as (_ & cx & Hcx & Hrun).
    rewrite deref_abs, Hcx by (apply Inv || done). cbn [map concat].
    rewrite (visit_below d c cx Hcx). specialize (Hrun (sel cx).2). destruct (sel cx) as [ws wc'] eqn:Es. simpl in *.
    destruct ws; simpl.
    - eexists. split; [done|]. by rewrite <- app_assoc.
    - by rewrite <- app_assoc.
  Qed.

  (** membership and uniqueness *)
  Definition walks (p q : name) : Prop :=
    exists y, m !! q = Some y /\ p `prefix_of` q /\ (sel y).1 = true /\
      forall r z, p `prefix_of` r -> r `prefix_of` q -> r <> q -> m !! r = Some z -> (sel z).2 = true.

  Lemma visit_prefix d : forall n q, q ∈ visit d n -> n `prefix_of` q.
  Proof.
    induction d as [|d IH]; intros n q; simpl; destruct (m !! n) as [x|] eqn:Hx; try mem; rewrite elem_of_app.
    - intros [Hq|Hq]; destruct (sel x) as [[] []]; simpl in Hq; try mem; by apply elem_of_list_singleton in Hq as ->.
    - intros [Hq|Hq].
      + destruct (sel x).1; [|mem]. by apply elem_of_list_singleton in Hq as ->.
      + destruct (sel x).2; [|mem]. apply elem_of_list_In, in_concat in Hq as (l & Hl & Hq).
        apply in_map_iff in Hl as (c & <- & Hc). apply elem_of_list_In in Hq, Hc. apply IH in Hq.
        apply (ti_child _ (proj2 Inv) _ _ _ Hx) in Hc as (_ & _ & Hcp). etrans; [|done].
        rewrite <- Hcp. apply par_prefix.
  Qed.

  Lemma visit_elem d : forall n q, 32 < length n + d -> is_Some (m !! n) ->
    q ∈ visit d n <-> walks n q.
  Proof.
    induction d as [|d IH]; intros n q Hd [x Hx].
    { apply (ti_depth _ (proj2 Inv)) in Hx. lia. }
    cbn [visit]. rewrite Hx, elem_of_app. split.
    - intros [Hq|Hq].
      + destruct (sel x).1 eqn:E1; [|mem]. apply elem_of_list_singleton in Hq as ->.
        exists x. split_and!; try done. intros r z H1 H2 H3. exfalso. apply H3.
        by apply (anti_symm prefix).
      + destruct (sel x).2 eqn:E1; [|mem]. apply elem_of_list_In, in_concat in Hq as (l & Hl & Hq).
        apply in_map_iff in Hl as (c & <- & Hc). apply elem_of_list_In in Hq, Hc.
        apply (ti_child _ (proj2 Inv) _ _ _ Hx) in Hc as (Hcs & Hc0 & Hcp).
        assert (length c = S (length n)) as Hlc. { rewrite <- Hcp, par_length. destruct c; simpl; [done|lia]. }
        apply IH in Hq as (y & Hy & Hcq & Hsy & Hw); [|lia|done].
        assert (n `prefix_of` c) as Hnc by (rewrite <- Hcp; apply par_prefix).
        exists y. split_and!; [done|by etrans|done|]. intros r z H1 H2 H3 Hz.
        destruct (decide (r = n)) as [->|Hrn]; [congruence|]. apply (Hw r z); try done.
        destruct (prefix_weak_total _ _ _ Hcq H2) as [?|Hrc]; [done|].
        destruct (decide (r = c)) as [->|Hne]; [done|].
        apply prefix_par in Hrc; [|done]. rewrite Hcp in Hrc. exfalso. apply Hrn. by apply (anti_symm prefix).
    - intros (y & Hy & Hp & Hs & Hw). destruct (decide (q = n)) as [->|Hne].
      { left. rewrite Hx in Hy. simplify_eq. rewrite Hs. mem. }
      right. rewrite (Hw n x); [|done|done|done|done].
      destruct Hp as [l ->]. destruct l as [|c l]; [by rewrite app_nil_r in Hne|].
      assert ((n ++ [c]) `prefix_of` (n ++ c :: l)) as Hpc. { exists l. by rewrite <- app_assoc. }
      assert (is_Some (m !! (n ++ [c]))) as Hcs.
      { eapply (closed_prefix hc _ (proj2 Inv)); [|exact Hpc]. eauto. }
      assert ((n ++ [c]) ∈ n_children x) as Hin.
      { apply (ti_child _ (proj2 Inv) _ _ _ Hx). split_and!; [done|by destruct n|apply par_snoc]. }
      apply elem_of_list_In, in_concat. exists (visit d (n ++ [c])). split.
      + apply in_map_iff. exists (n ++ [c]). split; [done|]. by apply elem_of_list_In.
      + apply elem_of_list_In. apply IH; [rewrite app_length; simpl; lia|done|].
        exists y. split_and!; try done. intros r z H1 H2 H3. apply Hw; try done.
        etrans; [|exact H1]. by exists [c].
  Qed.

  Lemma visit_nodup d : forall n, NoDup (visit d n).
  Proof.
    induction d as [|d IH]; intros n; simpl; destruct (m !! n) as [x|] eqn:Hx; try constructor.
    - destruct (sel x) as [[] []]; simpl; repeat constructor; mem.
    - apply NoDup_app. split_and!.
      + destruct (sel x).1; [apply NoDup_singleton|constructor].
      + intros q Hq1 Hq2. destruct (sel x).1; [|mem]. apply elem_of_list_singleton in Hq1 as ->.
        destruct (sel x).2; [|mem]. apply elem_of_list_In, in_concat in Hq2 as (l & Hl & Hq).
        apply in_map_iff in Hl as (c & <- & Hc). apply elem_of_list_In in Hq, Hc. apply visit_prefix in Hq.
        apply (ti_child _ (proj2 Inv) _ _ _ Hx) in Hc as (_ & Hc0 & Hcp).
        apply prefix_length in Hq. rewrite <- Hcp, par_length in Hq. destruct c; simpl in *; [done|lia].
      + destruct (sel x).2; [|constructor].
        assert (forall c, c ∈ n_children x -> c <> [] /\ par c = n) as Hall.
        { intros c Hc. by apply (ti_child _ (proj2 Inv) _ _ _ Hx) in Hc as (_ & ? & ?). }
        pose proof (ti_child_nd _ (proj2 Inv) _ _ Hx) as Hnd.
        induction (n_children x) as [|c l IHl]; simpl; [constructor|].
        apply NoDup_cons in Hnd as [Hcl Hnd]. apply NoDup_app. split_and!; [apply IH| |].
        * intros q Hq1 Hq2. apply elem_of_list_In, in_concat in Hq2 as (k & Hk & Hq).
          apply in_map_iff in Hk as (c' & <- & Hc'). apply elem_of_list_In in Hq, Hc'.
          apply visit_prefix in Hq1. apply visit_prefix in Hq.
          destruct (Hall c ltac:(mem)) as [Hc0 Hcp]. destruct (Hall c' ltac:(mem)) as [Hc0' Hcp'].
          assert (length c = length c') as Hlen.
          { apply (f_equal length) in Hcp, Hcp'. rewrite par_length in *. destruct c, c'; simpl in *; try done; lia. }
          assert (c = c') as ->; [|mem].
          apply take_prefix_iff in Hq1 as [Hq1 _]. apply take_prefix_iff in Hq as [Hq _].
          rewrite Hq1, Hq. by rewrite Hlen.
        * apply IHl; [|done]. intros c' Hc'. apply Hall. mem.
  Qed.

  (** pre-order: an entry comes before everything below it *)
  Notation before := (fun a b : name => b `prefix_of` a -> a = b).
  Lemma visit_preorder d : forall n, StronglySorted before (visit d n).
  Proof.
    assert (forall l1 l2 : list name, StronglySorted before l1 -> StronglySorted before l2 ->
      (forall a b, a ∈ l1 -> b ∈ l2 -> before a b) -> StronglySorted before (l1 ++ l2)) as Happ.
    { induction l1 as [|a l1 IH]; intros l2 H1 H2 Hc; simpl; [done|].
      apply StronglySorted_inv in H1 as [H1 Ha]. constructor.
      - apply IH; [done|done|]. intros a' b Ha' Hb. apply Hc; [mem|done].
      - apply Forall_app. split; [done|]. apply Forall_forall. intros b Hb. apply Hc; [mem|done]. }
    induction d as [|d IH]; intros n; simpl; destruct (m !! n) as [x|] eqn:Hx; try constructor.
    - destruct (sel x) as [[] []]; simpl; repeat constructor.
    - apply Happ.
      + destruct (sel x).1; repeat constructor.
      + destruct (sel x).2; [|constructor].
        assert (forall c, c ∈ n_children x -> c <> [] /\ par c = n) as Hall.
        { intros c Hc. by apply (ti_child _ (proj2 Inv) _ _ _ Hx) in Hc as (_ & ? & ?). }
        pose proof (ti_child_nd _ (proj2 Inv) _ _ Hx) as Hnd.
        induction (n_children x) as [|c l IHl]; simpl; [constructor|].
        apply NoDup_cons in Hnd as [Hcl Hnd]. apply Happ; [apply IH| |].
        * apply IHl; [|done]. intros c' Hc'. apply Hall. mem.
        * intros q1 q2 Hq1 Hq2 Hpre. apply elem_of_list_In, in_concat in Hq2 as (k & Hk & Hq).
          apply in_map_iff in Hk as (c' & <- & Hc'). apply elem_of_list_In in Hq, Hc'.
          apply visit_prefix in Hq1. apply visit_prefix in Hq.
          destruct (Hall c ltac:(mem)) as [Hc0 Hcp]. destruct (Hall c' ltac:(mem)) as [Hc0' Hcp'].
          assert (length c = length c') as Hlen.
          { apply (f_equal length) in Hcp, Hcp'. rewrite par_length in *. destruct c, c'; simpl in *; try done; lia. }
          exfalso. assert (c = c') as ->; [|mem].
          assert (c' `prefix_of` q1) as Hq1' by (by etrans).
          apply take_prefix_iff in Hq1 as [Hq1 _]. apply take_prefix_iff in Hq1' as [Hq1' _].
          rewrite Hq1, Hq1'. by rewrite Hlen.
      + intros a b Ha Hb Hpre. destruct (sel x).1; [|mem]. apply elem_of_list_singleton in Ha as ->.
        apply (anti_symm prefix); [|done]. destruct (sel x).2; [|mem].
        apply elem_of_list_In, in_concat in Hb as (l & Hl & Hq).
        apply in_map_iff in Hl as (c & <- & Hc). apply elem_of_list_In in Hq, Hc. apply visit_prefix in Hq.
        apply (ti_child _ (proj2 Inv) _ _ _ Hx) in Hc as (_ & Hc0 & Hcp). etrans; [|done].
        rewrite <- Hcp. apply par_prefix.
  Qed.

  Lemma ref_runs_end : is_Some (m !! ref) -> runs ref false [].
  Proof.
    intros [x Hx]. apply runs_intro. unfold pe_loop_body. rewrite deref_abs, Hx by (apply Inv || done).
    rewrite name_eqb_refl. by destruct (n_children x).
  Qed.
  Lemma ref_runs wc : is_Some (m !! ref) -> runs ref wc (below 33 ref wc).
  Proof.
    intros Hs. rewrite <- (app_nil_r (below 33 ref wc)). apply runs_down; [lia|done|done|].
    by apply ref_runs_end.
  Qed.
End enum.

Section partial.
  Context {E : Type} (e0 : E) (hc : comp -> N) (opts : ht_options).
  Lemma partial_enumerate_ok t p sel : options_ok opts -> nt_inv (E:=E) hc opts t ->
    exists l f0, (forall fuel, f0 <= fuel -> nt_partial_enumerate e0 hc opts fuel p sel t = Some l) /\
      NoDup l /\ StronglySorted (fun a b : name => b `prefix_of` a -> a = b) l /\
      forall q, q ∈ l <-> walks t sel p q.
  Proof.
    intros Hopts Inv. unfold nt_partial_enumerate. rewrite (find_exact_ok e0 (fun _ => true) hc opts Hopts t p None Inv), firstn_all.
    destruct (abs t !! p) as [x|] eqn:Hx.
    - pose proof (ti_name _ (proj2 Inv) _ _ Hx) as Hn. rewrite Hn. 
      destruct (ref_runs e0 hc opts Hopts t Inv sel p (sel x).2) as [f0 Hf0]; [eauto|].
      exists (visit t sel 33 p), f0. split; [|split; [by eapply visit_nodup|split; [by eapply visit_preorder|]]].
      + intros fuel Hf. rewrite (visit_below t sel 33 p x Hx). specialize (Hf0 fuel Hf).
        destruct (sel x) as [ws wc] eqn:Es. simpl in *. rewrite Hf0. by destruct ws.
      + intros q. eapply (visit_elem hc opts Hopts t Inv sel 33); [lia|eauto].
    - exists [], 0. split; [done|]. split; [constructor|]. split; [constructor|].
      intros q. split; [mem|]. intros (y & Hy & Hp & _).
      destruct (closed_prefix hc _ (proj2 Inv) q p) as [z Hz]; [eauto|done|]. congruence.
  Qed.
End partial.
