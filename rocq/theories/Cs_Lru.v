(** LRU: the store is ordered by last use. *)
From Verif Require Import Lib Name_Model Name_Spec Name_Proof Packet_Model Cs_Model Cs_Spec Cs_Proof Cs_Refine Cs_Find Cs_Run.

Lemma evicts_lru limit l l' : Forall (fun it => it_class it = Regular) l -> evicts limit l l' ->
  l' `suffix_of` l.
Proof.
  intros HF. induction 1 as [|l1 it l2 l' Hlim H1 H2 He IH]; [done|].
  rewrite Forall_app, Forall_cons in HF. destruct HF as (HF1 & HFi & HF2).
  destruct l1 as [|x l1].
  - simpl in *. etrans; [by apply IH|]. by exists [it].
  - exfalso. rewrite Forall_cons in H1, HF1. destruct H1 as [H1 _], HF1 as [HFx _].
    rewrite HFi, HFx in H1. lia.
Qed.

Lemma suffix_sublist {A} (l k : list A) : l `suffix_of` k -> l `sublist_of` k.
Proof. intros [p ->]. by apply sublist_inserts_l. Qed.

Lemma same_packet_refl d : same_packet d d.
Proof. done. Qed.
Lemma same_packet_sym d e : same_packet d e -> same_packet e d.
Proof. unfold same_packet. naive_solver. Qed.
Lemma same_packet_trans d e f : same_packet d e -> same_packet e f -> same_packet d f.
Proof. unfold same_packet. naive_solver congruence. Qed.

Lemma R_regular s a : R s a -> a_kind a = K_lru -> Forall (fun it => it_class it = Regular) (a_items a).
Proof. intros [_ _ _ _ _ Hp] Hk. destruct (cs_policy s); [naive_solver|]. naive_solver congruence. Qed.

Lemma data_before_irrefl d e : same_packet d e -> ~ data_before d e.
Proof.
  intros [H1 H2] Hb. rewrite <-key_cmp_lt in Hb. unfold data_key in Hb.
  rewrite H1, H2, (cmp_refl key_cmp_ok) in Hb. done.
Qed.
Lemma data_before_asym d e : data_before d e -> ~ data_before e d.
Proof.
  rewrite <-!key_cmp_lt. intros H. rewrite (cmp_sym key_cmp_ok (data_key d)), H. done.
Qed.

Definition table_items_elem s a it : R s a -> it ∈ a_items a -> strip it ∈ cs_table s.
Proof. intros [_ _ _ _ Hi _] Hit. rewrite Hi. by apply elem_of_list_fmap_1. Qed.

Lemma table_entry_item s a e : R s a -> e ∈ cs_table s -> exists it, it ∈ a_items a /\ e = strip it.
Proof.
  intros [_ _ _ _ Hi _] He. rewrite Hi in He. apply elem_of_list_fmap in He as (it & -> & ?). eauto.
Qed.

Lemma prefix_interest_satisfies now p it :
  item_satisfies now (Interest p true false 0 4000 None [] None None false) it <-> under p (it_data it).
Proof.
  split; [apply satisfies_under|]. intros [s Hs]. split; [|done]. unfold name_satisfies. simpl.
  destruct s as [|x s _] using rev_ind.
  - left. by rewrite app_nil_r in Hs.
  - right. right. split; [done|]. rewrite app_assoc in Hs. apply app_inj_2 in Hs as [Hs _]; [|done].
    by exists s.
Qed.

(** One step in LRU mode: either some packets leave and no remaining one is
    used, or the used packet is last. *)
Lemma lru_step s a o s' r a' :
  R s a -> R s' a' -> cs_step s o = Some (s', r) -> a_step a o a' r ->
  a_kind a' = K_lru ->
  (a_kind a = K_lru \/ a_items a' = []) /\
  ((a_items a' `sublist_of` a_items a /\ forall it, it ∈ a_items a' -> ~ uses (it_data it) s o r s') \/
   (exists l it, a_items a' = l ++ [it] /\ l `sublist_of` a_items a /\ uses (it_data it) s o r s' /\
      forall x, x ∈ l -> ~ uses (it_data x) s o r s')).
Proof.
  intros HR HR' Hstep Hst Hk.
  pose proof (R_nodup _ _ HR) as Hnd. pose proof (R_nodup _ _ HR') as Hnd'.
  assert (Hset : forall limit a1, a_set_limit limit a a1 -> a_kind a = K_lru ->
            a_items a1 `sublist_of` a_items a).
  { intros limit a1 (l' & He & ->) Hka. simpl. apply suffix_sublist. eapply evicts_lru; [|done].
    by eapply R_regular. }
  assert (Hfind : forall now i a0 r0, a_find now i a a0 r0 -> a_kind a = K_lru -> True) by done.
  destruct Hst as [now d u a' Hi|p limit a' n He|now i a' r Hf|limit a' Hl|limit k a1 a' Hl ->|
                   cap ad se a1 a' Hl ->|now ev a' Ht|now p count a' n more Hm]; simpl in *.
  - inversion Hi; subst; clear Hi; simpl in *.
    + split; [by left|]. left. split; [done|]. intros it Hit (_ & Had & Hlim & Hnc).
      rewrite (R_admit _ _ HR) in Had. rewrite (R_limit _ _ HR) in Hlim.
      destruct H as [H|[H|H]]; [congruence|lia|congruence].
    + split; [by left|]. right. eexists _, _. rewrite app_assoc. split; [done|].
      rewrite H2. split_and!.
      * apply sublist_app; [done|]. by apply sublist_cons.
      * simpl. done.
      * by rewrite (R_admit _ _ HR).
      * by rewrite (R_limit _ _ HR).
      * done.
      * intros x Hx (Hsp & _). simpl in *.
        rewrite H2 in Hnd. pose proof (nodup_mid _ _ _ Hnd) as (Hn1 & Hn2 & _).
        assert (it_key x = it_key it) as Heq.
        { apply same_packet_key. eapply same_packet_trans; [exact Hsp|]. by apply same_packet_sym. }
        apply elem_of_app in Hx as [Hx|Hx]; [apply Hn1|apply Hn2]; rewrite <-Heq; by apply elem_of_list_fmap_1.
    + split; [by left|].
      match goal with H : evicts _ (_ ++ [?n]) _ |- _ => set (new := n) in * end.
      assert (l' `suffix_of` a_items a ++ [new]) as Hsuf.
      { eapply evicts_lru; [|done]. rewrite Forall_app, Forall_singleton. split; [by eapply R_regular|].
        unfold new. simpl. by rewrite Hk. }
      destruct (decide (l' = [])) as [->|Hne].
      { left. split; [apply sublist_nil_l|]. intros it Hit. by apply elem_of_nil in Hit. }
      destruct (exists_last Hne) as (l & it & ->).
      destruct Hsuf as [p Hsuf]. rewrite app_assoc in Hsuf. apply app_inj_2 in Hsuf as [Hsuf [= <-]]; [|done].
      right. exists l, new. split; [done|]. split; [rewrite Hsuf; by apply sublist_inserts_l|].
      split; [by rewrite (R_admit _ _ HR), (R_limit _ _ HR)|].
      intros x Hx (Hsp & _). apply (H2 x); [|done]. rewrite Hsuf. mem.
  - destruct He as (vi & ke & _ & _ & _ & _ & _ & _ & _ & Hsub & Ha1). rewrite Ha1 in Hk. simpl in Hk. split; [by left|].
    left. split; [done|]. naive_solver.
  - inversion Hf; subst; clear Hf; simpl in *.
    + split; [by left|]. left. naive_solver.
    + split; [by left|]. left. naive_solver.
    + split; [by left|]. right. exists (l1 ++ l2), it. rewrite app_assoc. split; [done|].
      rewrite H2. split; [apply sublist_app; [done|]; by apply sublist_cons|]. split; [done|].
      intros x Hx Hsp. rewrite H2 in Hnd. pose proof (nodup_mid _ _ _ Hnd) as (Hn1 & Hn2 & _).
      apply same_packet_key in Hsp.
      apply elem_of_app in Hx as [Hx|Hx]; [apply Hn1|apply Hn2]; change (it_key x = it_key it) in Hsp; rewrite <-Hsp;
        by apply elem_of_list_fmap_1.
    + congruence.
  - pose proof Hl as (l' & _ & ->). simpl in Hk. split; [by left|]. left. split; [by eapply Hset|naive_solver].
  - pose proof Hl as (l' & _ & ->). simpl in *. destruct l' as [|x l'].
    + split; [destruct k; simpl; auto|]. left. split; [|naive_solver].
      destruct k; apply sublist_nil_l.
    + simpl in *. split; [by left|]. left. split; [by eapply (Hset _ _ Hl)|naive_solver].
  - destruct cap as [c|].
    + pose proof Hl as (l' & _ & ->). simpl in *. split; [by left|]. left.
      split; [by eapply (Hset _ _ Hl)|naive_solver].
    + subst. simpl in *. split; [by left|]. left. naive_solver.
  - inversion Ht; subst; simpl in *; [split; [by left|]; left; naive_solver|congruence].
  - destruct Hm as (a1 & He & Hm1 & Hm2).
    destruct He as (vi & ke & _ & _ & _ & _ & _ & _ & _ & Hsub & Ha1).
    destruct (decide (n = 256 /\ 256 < (match count with Some c => c | None => (2^64 - 1)%N end))%N) as [E|E].
    2:{ destruct (Hm2 E) as [-> ->]. rewrite Ha1 in Hk. split; [by left|]. left. naive_solver. }
    destruct (Hm1 E) as (res & Hf & ->). clear Hm1 Hm2.
    inversion Hf; subst; clear Hf; simpl in *.
    + rewrite Ha1 in Hk. split; [by left|]. left. naive_solver.
    + rewrite Ha1 in Hk. split; [by left|]. left. naive_solver.
    + assert (a_kind a = K_lru) as Hka by (rewrite Ha1 in Hk; done).
      split; [by left|]. right. exists (l1 ++ l2), it. rewrite app_assoc. split; [done|].
      destruct H3 as (Hin & Hsat & Hfirst).
      assert (NoDup (it_key <$> l1 ++ it :: l2)) as Hnd1.
      { rewrite <-H2. eapply sublist_nodup; [by apply sublist_map|done]. }
      pose proof (nodup_mid _ _ _ Hnd1) as (Hn1 & Hn2 & _).
      assert (Hitems' : forall x, x ∈ l1 ++ l2 ++ [it] <-> x ∈ a_items a1).
      { intros x. rewrite H2. mem. }
      assert (uses (it_data it) s (OMgmtErase now p count) (RMgmt n true) s') as Huse.
      { simpl. split; [|split].
        - exists (strip it). split; [|done]. eapply table_items_elem; [done|]. simpl. mem.
        - exact (proj1 (prefix_interest_satisfies now p it) Hsat).
        - intros e He Hu. destruct (table_entry_item _ _ _ HR' He) as (x & Hx & ->). simpl in Hx.
          apply (Hfirst x); [by apply Hitems'|]. by apply prefix_interest_satisfies. }
      split; [|split; [exact Huse|]].
      * etrans; [|exact Hsub]. rewrite H2. apply sublist_app; [done|]. by apply sublist_cons.
      * intros x Hx (_ & Hux & Hfx).
        assert (same_packet (it_data x) (it_data it) \/ data_before (it_data x) (it_data it)) as [Hs|Hb].
        { apply (Hfx (strip it)); [eapply table_items_elem; [done|]; simpl; mem|].
          exact (proj1 (prefix_interest_satisfies now p it) Hsat). }
        -- apply same_packet_key in Hs.
           apply elem_of_app in Hx as [Hx|Hx]; [apply Hn1|apply Hn2]; change (it_key x = it_key it) in Hs; rewrite <-Hs;
             by apply elem_of_list_fmap_1.
        -- destruct (Hfirst x) as [Hs|Hb'].
           { rewrite H2. mem. } { by apply prefix_interest_satisfies. }
           ++ by apply (data_before_irrefl _ _ (same_packet_sym _ _ Hs)).
           ++ by apply (data_before_asym _ _ Hb).
    + rewrite Ha1 in *. simpl in *. congruence.
Qed.

Lemma used_at_snoc s0 ops o d m s rs s' r :
  cs_run s0 ops = Some (s, rs) -> cs_step s o = Some (s', r) ->
  used_at s0 (ops ++ [o]) d m <-> used_at s0 ops d m \/ (m = length ops /\ uses d s o r s').
Proof.
  intros Hrun Hst. split.
  - intros (ops1 & o1 & ops2 & s1 & rs1 & s2 & r2 & Heq & Hlen & Hr & Hs & Hu).
    destruct ops2 as [|x ops2 _] using rev_ind.
    + apply app_inj_2 in Heq as [<- [= <-]]; [|done]. right. split; [done|]. naive_solver.
    + rewrite app_comm_cons, app_assoc in Heq. apply app_inj_2 in Heq as [-> _]; [|done].
      left. exists ops1, o1, ops2, s1, rs1, s2, r2. done.
  - intros [(ops1 & o1 & ops2 & s1 & rs1 & s2 & r2 & Heq & Hlen & Hr & Hs & Hu)|[-> Hu]].
    + exists ops1, o1, (ops2 ++ [o]), s1, rs1, s2, r2. rewrite Heq.
      split; [by rewrite <-app_assoc|done].
    + exists ops, o, [], s, rs, s', r. done.
Qed.

Lemma used_at_bound s0 ops d m : used_at s0 ops d m -> m < length ops.
Proof.
  intros (ops1 & o1 & ops2 & s1 & rs1 & s2 & r2 & -> & <- & _). rewrite app_length. simpl. lia.
Qed.

Lemma last_used_snoc_old s0 ops o d n s rs s' r :
  cs_run s0 ops = Some (s, rs) -> cs_step s o = Some (s', r) ->
  last_used s0 ops d n -> ~ uses d s o r s' -> last_used s0 (ops ++ [o]) d n.
Proof.
  intros Hrun Hst [Hu Hl] Hno. split.
  - eapply used_at_snoc; [done..|]. by left.
  - intros m Hm. rewrite used_at_snoc in Hm by done. naive_solver.
Qed.
Lemma last_used_snoc_new s0 ops o d s rs s' r :
  cs_run s0 ops = Some (s, rs) -> cs_step s o = Some (s', r) ->
  uses d s o r s' -> last_used s0 (ops ++ [o]) d (length ops).
Proof.
  intros Hrun Hst Hu. split.
  - eapply used_at_snoc; [done..|]. by right.
  - intros m Hm%used_at_bound. rewrite app_length in Hm. simpl in Hm. lia.
Qed.

(** the cached packets in eviction order carry increasing times of last use *)
Definition lru_sorted (s0 : cs) (ops : list cs_op) (l : list item) : Prop :=
  exists ts, Forall2 (fun it t => last_used s0 ops (it_data it) t) l ts /\ StronglySorted lt ts.

Lemma Forall2_sublist {A B} (P : A -> B -> Prop) (l k : list A) (ts : list B) :
  l `sublist_of` k -> Forall2 P k ts -> exists us, us `sublist_of` ts /\ Forall2 P l us.
Proof.
  intros Hs. revert ts. induction Hs as [|x l k Hs IH|x l k Hs IH]; intros ts HF.
  - exists []. split; [apply sublist_nil_l|constructor].
  - inversion HF; subst. destruct (IH _ H3) as (us & ? & ?). exists (y :: us).
    split; by constructor.
  - inversion HF; subst. destruct (IH _ H3) as (us & ? & ?). exists us. split; [by constructor|done].
Qed.
Lemma StronglySorted_sublist {A} (P : relation A) (l k : list A) :
  l `sublist_of` k -> StronglySorted P k -> StronglySorted P l.
Proof.
  intros Hs. induction Hs as [|x l k Hs IH|x l k Hs IH]; intros HS; [done|..]; inversion HS; subst.
  - constructor; [by apply IH|]. rewrite Forall_forall in *. intros y Hy. apply H2.
    by eapply sublist_elem_of.
  - by apply IH.
Qed.
Lemma StronglySorted_snoc (l : list nat) n : StronglySorted lt l -> Forall (fun x => x < n) l ->
  StronglySorted lt (l ++ [n]).
Proof.
  induction 1 as [|x l HS IH HF]; intros Hn; simpl; [repeat constructor|].
  apply Forall_cons in Hn as [Hx Hn]. constructor; [by apply IH|].
  rewrite Forall_app, Forall_singleton. done.
Qed.

Lemma lru_sorted_step s0 ops o s rs a s' r a' :
  cs_run s0 ops = Some (s, rs) -> cs_step s o = Some (s', r) ->
  R s a -> R s' a' -> a_step a o a' r ->
  (a_kind a = K_lru -> lru_sorted s0 ops (a_items a)) ->
  a_kind a' = K_lru -> lru_sorted s0 (ops ++ [o]) (a_items a').
Proof.
  intros Hrun Hst HR HR' Ha IH Hk.
  destruct (lru_step _ _ _ _ _ _ HR HR' Hst Ha Hk) as [[Hka|Hnil] Hcase].
  2:{ rewrite Hnil. exists []. split; constructor. }
  destruct (IH Hka) as (ts & HF & HS).
  destruct Hcase as [[Hsub Hno]|(l & it & -> & Hsub & Hu & Hno)].
  - destruct (Forall2_sublist _ _ _ _ Hsub HF) as (us & Hus & HFu). exists us. split.
    + apply Forall2_same_length_lookup. split; [by eapply Forall2_length|].
      intros i x t Hx Ht. rewrite Forall2_lookup in HFu. specialize (HFu i). rewrite Hx, Ht in HFu.
      inversion HFu; subst. eapply last_used_snoc_old; [done..|]. apply Hno.
      by eapply elem_of_list_lookup_2.
    + by eapply StronglySorted_sublist.
  - destruct (Forall2_sublist _ _ _ _ Hsub HF) as (us & Hus & HFu). exists (us ++ [length ops]). split.
    + apply Forall2_app.
      * apply Forall2_same_length_lookup. split; [by eapply Forall2_length|].
        intros i x t Hx Ht. rewrite Forall2_lookup in HFu. specialize (HFu i). rewrite Hx, Ht in HFu.
        inversion HFu; subst. eapply last_used_snoc_old; [done..|]. apply Hno.
        by eapply elem_of_list_lookup_2.
      * constructor; [|constructor]. by eapply last_used_snoc_new.
    + apply StronglySorted_snoc; [by eapply StronglySorted_sublist|].
      rewrite Forall_forall. intros t Ht. apply elem_of_list_lookup in Ht as (i & Hi).
      rewrite Forall2_lookup in HFu. specialize (HFu i). rewrite Hi in HFu. inversion HFu; subst.
      match goal with H : last_used _ _ _ t |- _ => destruct H as [Hx _] end.
      by eapply used_at_bound.
Qed.

Lemma lru_sorted_run s0 a0 ops s rs :
  R s0 a0 -> wf_items a0 -> a_items a0 = [] -> Forall op_wf ops ->
  cs_run s0 ops = Some (s, rs) ->
  exists a, R s a /\ wf_items a /\ (a_kind a = K_lru -> lru_sorted s0 ops (a_items a)).
Proof.
  intros HR Hwf Hnil. revert s rs.
  induction ops as [|o ops IH] using rev_ind; intros s rs Hwo Hrun.
  - simpl in Hrun. injection Hrun as <- <-. exists a0. split; [done|]. split; [done|].
    intros _. rewrite Hnil. exists []. split; constructor.
  - rewrite Forall_app, Forall_singleton in Hwo. destruct Hwo as [Hwo Hwo'].
    rewrite cs_run_app in Hrun. destruct (cs_run s0 ops) as [[s1 r1]|] eqn:E; [|done].
    destruct (IH _ _ Hwo eq_refl) as (a1 & HR1 & Hwf1 & Hsrt).
    destruct (cs_step_R s1 a1 o HR1 Hwf1 Hwo') as (s2 & r & a2 & Hst & Ha & HR2 & Hwf2).
    simpl in Hrun. rewrite Hst in Hrun. injection Hrun as <- <-.
    exists a2. split; [done|]. split; [done|]. intros Hk.
    by eapply lru_sorted_step.
Qed.

Lemma StronglySorted_lt_lookup (ts : list nat) i j x y : StronglySorted lt ts -> ts !! i = Some x -> ts !! j = Some y ->
  i < j -> x < y.
Proof.
  intros HS. revert i j. induction HS as [|t ts HS IH HF]; intros i j Hi Hj Hlt; [done|].
  destruct i as [|i], j as [|j]; simpl in *; try lia.
  - injection Hi as <-. rewrite Forall_forall in HF. apply HF. by eapply elem_of_list_lookup_2.
  - eapply IH; [done..|lia].
Qed.

(** What leaves in LRU mode, other than by erasure, was used before everything
    that stays. *)
Lemma lru_evicted_prefix s a o s' r a' :
  R s a -> R s' a' -> cs_step s o = Some (s', r) -> a_step a o a' r -> evicting o ->
  a_kind a = K_lru -> forall v, v ∈ a_items a -> it_key v ∉ (it_key <$> a_items a') ->
  forall w, w ∈ a_items a' ->
    uses (it_data w) s o r s' \/
    exists l1 l2 l3, a_items a = l1 ++ v :: l2 ++ w :: l3.
Proof.
  intros HR HR' Hstep Hst Hev Hk v Hv Hgone w Hw.
  pose proof (R_nodup _ _ HR) as Hnd.
  assert (Hset : forall limit a1, a_set_limit limit a a1 -> a_items a' = a_items a1 ->
    exists l1 l2 l3, a_items a = l1 ++ v :: l2 ++ w :: l3).
  { intros limit a1 (l' & He & ->) Heq. simpl in Heq. rewrite Heq in *.
    apply evicts_lru in He; [|by eapply R_regular]. destruct He as [p Hp].
    assert (v ∈ p) as Hvp.
    { rewrite Hp in Hv. apply elem_of_app in Hv as [Hv|Hv]; [done|]. exfalso. apply Hgone.
      by apply elem_of_list_fmap_1. }
    apply elem_of_list_split in Hvp as (p1 & p2 & ->).
    apply elem_of_list_split in Hw as (q1 & q2 & ->).
    exists p1, (p2 ++ q1), q2. rewrite Hp. by rewrite <-!app_assoc. }
  destruct Hst as [now d u a' Hi|p limit a' n He|now i a' r Hf|limit a' Hl|limit k a1 a' Hl ->|
                   cap ad se a1 a' Hl ->|now ev a' Ht|now p count a' n more Hm]; simpl in Hev; try done.
  - inversion Hi; subst; clear Hi; simpl in *.
    + exfalso. apply Hgone. by apply elem_of_list_fmap_1.
    + exfalso. apply Hgone. rewrite H2 in Hv.
      apply elem_of_app in Hv as [Hv|Hv]; [|apply elem_of_cons in Hv as [->|Hv]].
      * apply elem_of_list_fmap_1 with (f := it_key) in Hv. mem.
      * rewrite !fmap_app. simpl. unfold it_key at 4. simpl. mem.
      * apply elem_of_list_fmap_1 with (f := it_key) in Hv. mem.
    + match goal with H : evicts _ (_ ++ [?n]) _ |- _ => set (new := n) in * end.
      assert (l' `suffix_of` a_items a ++ [new]) as [p Hsuf].
      { eapply evicts_lru; [|done]. rewrite Forall_app, Forall_singleton. split; [by eapply R_regular|].
        unfold new. simpl. by rewrite Hk. }
      destruct (exists_last (l := l')) as (l & x & ->). { intros ->. by apply elem_of_nil in Hw. }
      rewrite app_assoc in Hsuf. apply app_inj_2 in Hsuf as [Hsuf [= <-]]; [|done].
      apply elem_of_app in Hw as [Hw|Hw].
      * right. assert (v ∈ p) as Hvp.
        { rewrite Hsuf in Hv. apply elem_of_app in Hv as [Hv|Hv]; [done|]. exfalso. apply Hgone.
          rewrite fmap_app. apply elem_of_list_fmap_1 with (f := it_key) in Hv. mem. }
        apply elem_of_list_split in Hvp as (p1 & p2 & ->).
        apply elem_of_list_split in Hw as (q1 & q2 & ->).
        exists p1, (p2 ++ q1), q2. rewrite Hsuf. by rewrite <-!app_assoc.
      * left. apply elem_of_list_singleton in Hw as ->.
        rewrite (R_admit _ _ HR), (R_limit _ _ HR). done.
  - right. by eapply Hset.
  - right. eapply (Hset limit a1); [done|]. pose proof Hl as (l' & _ & ->). simpl in *.
    destruct l'; [|done]. destruct k; simpl in Hw; by apply elem_of_nil in Hw.
  - right. destruct cap as [c|]; [by eapply (Hset c a1)|]. subst. exfalso. apply Hgone.
    by apply elem_of_list_fmap_1.
Qed.

Lemma lru_evicts_oldest limit ops o s rs s' r :
  Forall op_wf ops -> op_wf o -> cs_run (cs_init limit) ops = Some (s, rs) ->
  (exists q, cs_policy s = P_lru q) -> cs_step s o = Some (s', r) -> evicting o ->
  forall v w, cached s v -> ~ cached s' v -> cached s' w ->
  exists nv nw, last_used (cs_init limit) ops v nv /\
    last_used (cs_init limit) (ops ++ [o]) w nw /\ nv < nw.
Proof.
  intros Hwo Ho Hrun [q Hq] Hstep Hev v w Hv Hv' Hw.
  destruct (lru_sorted_run (cs_init limit) (acs_init limit) ops s rs)
    as (a & HR & Hwf & Hsrt); [apply R_init|constructor|done|done|done|].
  destruct (cs_step_R s a o HR Hwf Ho) as (s2 & r2 & a' & Hst & Ha & HR' & Hwf').
  rewrite Hstep in Hst. injection Hst as <- <-.
  assert (a_kind a = K_lru) as Hk.
  { pose proof (R_policy _ _ HR) as Hp. rewrite Hq in Hp. naive_solver. }
  destruct (Hsrt Hk) as (ts & HF & HS).
  destruct Hv as (ev & Hev1 & Hev2). destruct (table_entry_item _ _ _ HR Hev1) as (iv & Hiv & ->).
  destruct Hw as (ew & Hew1 & Hew2). destruct (table_entry_item _ _ _ HR' Hew1) as (iw & Hiw & ->).
  simpl in *.
  assert (Hlu : forall ops d d' n, same_packet d d' -> last_used (cs_init limit) ops d n -> last_used (cs_init limit) ops d' n).
  { assert (forall d d' s o r s', same_packet d d' -> uses d s o r s' -> uses d' s o r s') as Hus.
    { clear. intros d d' s o r s' Hsp. assert (same_packet d' d) as Hsp' by by apply same_packet_sym.
      destruct o; simpl; try done.
      - intros [H ?]. split; [|done]. by eapply same_packet_trans.
      - destruct r as [|[]| |]; try done. by apply same_packet_trans.
      - destruct r as [| | |n []]; try done. intros ((e & He & Hs) & Hu & Hf).
        destruct Hsp as [Hn Hd]. unfold under, same_packet, data_before in *. rewrite <-Hn, <-Hd.
        split; [exists e; naive_solver|]. done. }
    assert (forall ops d d' n, same_packet d d' -> used_at (cs_init limit) ops d n -> used_at (cs_init limit) ops d' n) as Hua.
    { intros ops' d d' n Hsp (ops1 & o1 & ops2 & s1 & rs1 & s2 & r2 & Heq & Hlen & Hr & Hs & Hu).
      exists ops1, o1, ops2, s1, rs1, s2, r2. split_and!; try done. by eapply Hus. }
    intros ops' d d' n Hsp [Hu Hmax]. split; [by eapply Hua|]. intros m Hm. apply Hmax.
    eapply Hua; [|exact Hm]. by apply same_packet_sym. }
  assert (it_key iv ∉ (it_key <$> a_items a')) as Hgone.
  { intros (x & Hx & Hxin)%elem_of_list_fmap. apply Hv'. exists (strip x).
    split; [by eapply table_items_elem|]. simpl. eapply same_packet_trans; [|exact Hev2].
    apply same_packet_key. exact (eq_sym Hx). }
  destruct (lru_evicted_prefix _ _ _ _ _ _ HR HR' Hstep Ha Hev Hk iv Hiv Hgone iw Hiw) as [Hu|(l1 & l2 & l3 & Hit)].
  - apply elem_of_list_lookup in Hiv as (i & Hi). rewrite Forall2_lookup in HF.
    specialize (HF i). rewrite Hi in HF. inversion HF as [? t Hlast Heq1 Heq2|]; subst.
    exists t, (length ops). split; [by eapply Hlu|]. split; [eapply Hlu; [exact Hew2|]; by eapply last_used_snoc_new|].
    destruct Hlast as [Hlast _]. by eapply used_at_bound.
  - assert (uses (it_data iw) s o r s' \/ ~ uses (it_data iw) s o r s') as [Hu|Hnu].
    { assert (Hk' : a_kind a' = K_lru).
      { clear -Ha Hev Hk Hiw.
        destruct Ha as [now d u a' Hi|p limit a' n He|now i a' r Hf|limit a' Hl|limit k a1 a' Hl ->|
                   cap ad se a1 a' Hl ->|now ev a' Ht|now p count a' n more Hm]; simpl in Hev; try done.
        - inversion Hi; subst; done.
        - destruct Hl as (l' & _ & ->). done.
        - destruct Hl as (l' & _ & ->). simpl in *. destruct l'; [|done].
          destruct k; simpl in Hiw; [by apply elem_of_nil in Hiw|done].
        - destruct cap; [destruct Hl as (l' & _ & ->)|subst]; done. }
      destruct (lru_step _ _ _ _ _ _ HR HR' Hstep Ha Hk') as [_ [[_ Hno]|(l & it & Heq & _ & Huse & Hno)]].
      - right. by apply Hno.
      - rewrite Heq in Hiw. apply elem_of_app in Hiw as [Hx|Hx]; [right; by apply Hno|].
        left. by apply elem_of_list_singleton in Hx as ->. }
    + apply elem_of_list_lookup in Hiv as (i & Hi). rewrite Forall2_lookup in HF.
      specialize (HF i). rewrite Hi in HF. inversion HF as [? t Hlast Heq1 Heq2|]; subst.
      exists t, (length ops). split; [by eapply Hlu|]. split; [eapply Hlu; [exact Hew2|]; by eapply last_used_snoc_new|].
      destruct Hlast as [Hlast _]. by eapply used_at_bound.
    + rewrite Forall2_lookup in HF.
      pose proof (HF (length l1)) as H1. pose proof (HF (length l1 + S (length l2))) as H2.
      rewrite Hit in H1, H2. rewrite lookup_app_r in H1 by lia. rewrite lookup_app_r in H2 by lia.
      rewrite Nat.sub_diag in H1. replace (length l1 + S (length l2) - length l1) with (S (length l2)) in H2 by lia.
      simpl in H1, H2. rewrite lookup_app_r in H2 by lia. rewrite Nat.sub_diag in H2. simpl in H2.
      inversion H1 as [? t1 Hl1 E1 E2|]; subst. inversion H2 as [? t2 Hl2 E3 E4|]; subst.
      exists t1, t2. split; [by eapply Hlu|]. split.
      * eapply Hlu; [exact Hew2|]. by eapply last_used_snoc_old.
      * eapply StronglySorted_lt_lookup; [done|done|done|lia].
Qed.
