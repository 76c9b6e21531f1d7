(** The ranking of faces. *)
From stdpp Require Import gmap.
From Verif Require Import Lib Name_Model Packet_Model Nt_Model Tree_Model Tab_Model Tab_Spec Fw_Model St_Model Asf_Model Asf_Spec.

Definition lex (x y : rank) : Prop :=
  let '(x1, x2, x3, x4) := x in
  let '(y1, y2, y3, y4) := y in
  (x1 < y1)%Z \/ (x1 = y1 /\ ((x2 < y2)%Z \/ (x2 = y2 /\ ((x3 < y3)%N \/ (x3 = y3 /\ (x4 < y4)%N))))).
Lemma rank_lex x y : rank_lt x y = true <-> lex x y.
Proof.
  destruct x as [[[x1 x2] x3] x4], y as [[[y1 y2] y3] y4]. unfold rank_lt, lex. rewrite !orb_true_iff, !andb_true_iff, !negb_true_iff, !Z.ltb_lt, !Z.ltb_ge, !orb_true_iff, !andb_true_iff, !negb_true_iff, !Z.ltb_lt, !Z.ltb_ge, !orb_true_iff, !andb_true_iff, !negb_true_iff, !N.ltb_lt, !N.ltb_ge. lia.
Qed.
Lemma rank_nlex x y : rank_lt x y = false <-> ~ lex x y.
Proof. rewrite <- rank_lex. by destruct (rank_lt x y). Qed.
Lemma rank_irrefl x : rank_lt x x = false.
Proof. apply rank_nlex. destruct x as [[[x1 x2] x3] x4]. simpl. lia. Qed.
Lemma rank_trans x y z : rank_lt x y = true -> rank_lt y z = true -> rank_lt x z = true.
Proof. rewrite !rank_lex. destruct x as [[[x1 x2] x3] x4], y as [[[y1 y2] y3] y4], z as [[[z1 z2] z3] z4]. simpl. lia. Qed.
Lemma rank_total x y : rank_lt x y = false -> rank_lt y x = false -> x = y.
Proof. rewrite !rank_nlex. destruct x as [[[x1 x2] x3] x4], y as [[[y1 y2] y3] y4]. simpl. intros. assert (x1 = y1 /\ x2 = y2 /\ x3 = y3 /\ x4 = y4) as (-> & -> & -> & ->) by lia. done. Qed.

Section set.
  Variable rk : fstats -> rank.
  Definition before (x y : fstats) : Prop := rank_lt (rk x) (rk y) = true.
  Lemma set_ins_in x l y : y ∈ set_ins rk x l -> y = x \/ y ∈ l.
  Proof using.
    induction l as [|z l IH]; simpl; [by intros ->%elem_of_list_singleton; left|].
    destruct (rank_lt (rk x) (rk z)); [intros [->|?]%elem_of_cons; auto|]. destruct (rank_lt (rk z) (rk x)).
    - intros [->|?]%elem_of_cons; [right; left|]. destruct IH as [->|?]; [done|by left|by right; right].
    - by right.
  Qed.
  Lemma set_ins_old x l y : y ∈ l -> y ∈ set_ins rk x l.
  Proof using.
    induction l as [|z l IH]; simpl; [by intros ?%elem_of_nil|]. intros H. destruct (rank_lt (rk x) (rk z)); [by right|]. destruct (rank_lt (rk z) (rk x)); [|done].
    apply elem_of_cons in H as [->|H]; [left|right; by apply IH].
  Qed.
  Lemma set_ins_new x l : exists y, y ∈ set_ins rk x l /\ rk y = rk x.
  Proof using.
    induction l as [|z l IH]; simpl; [exists x; split; [left|done]|]. destruct (rank_lt (rk x) (rk z)) eqn:E1; [exists x; split; [left|done]|]. destruct (rank_lt (rk z) (rk x)) eqn:E2.
    - destruct IH as (y & A & B). exists y. split; [by right|done].
    - exists z. split; [left|by apply rank_total].
  Qed.
  Lemma set_ins_sorted x l : StronglySorted before l -> StronglySorted before (set_ins rk x l).
  Proof using.
    induction 1 as [|z l Hs IH Hf]; simpl; [by repeat constructor|]. destruct (rank_lt (rk x) (rk z)) eqn:E1.
    - constructor; [by constructor|]. constructor; [done|]. eapply Forall_impl; [exact Hf|]. intros y Hy. by eapply rank_trans.
    - destruct (rank_lt (rk z) (rk x)) eqn:E2; [|by constructor]. constructor; [done|]. apply Forall_forall. intros y [->|Hy]%set_ins_in; [done|]. rewrite Forall_forall in Hf. by apply Hf.
  Qed.
  Lemma ranked_spec l : StronglySorted before (ranked rk l) /\ (forall x, x ∈ ranked rk l -> x ∈ l) /\ (forall x, x ∈ l -> exists y, y ∈ ranked rk l /\ rk y = rk x).
  Proof using.
    unfold ranked. induction l as [|x l IH] using rev_ind; [split; [constructor|]; split; [done|by intros ? ?%elem_of_nil]|].
    rewrite foldl_app. simpl. destruct IH as (A & B & C). split; [by apply set_ins_sorted|]. split.
    - intros y [->|Hy]%set_ins_in; apply elem_of_app; [right; by left|left; by apply B].
    - intros y [Hy| ->%elem_of_list_singleton]%elem_of_app; [|apply set_ins_new]. destruct (C y Hy) as (z & Hz & E). exists z. split; [by apply set_ins_old|done].
  Qed.
  (** the first is at least as good as any *)
  Lemma ranked_head l : match ranked rk l with [] => l = [] | x :: _ => x ∈ l /\ forall y, y ∈ l -> rank_lt (rk y) (rk x) = false end.
  Proof using.
    destruct (ranked_spec l) as (A & B & C). destruct (ranked rk l) as [|x r].
    - destruct l as [|y l]; [done|]. destruct (C y) as (z & Hz & _); [left|]. by apply elem_of_nil in Hz.
    - split; [apply B; left|]. intros y Hy. destruct (C y Hy) as (z & Hz & <-). inversion A as [|?? _ Hf]; subst. apply elem_of_cons in Hz as [->|Hz]; [apply rank_irrefl|].
      rewrite Forall_forall in Hf. specialize (Hf z Hz). unfold before in Hf. destruct (rank_lt (rk z) (rk x)) eqn:E; [|done]. pose proof (rank_trans _ _ _ Hf E) as Hx. by rewrite rank_irrefl in Hx.
  Qed.
End set.

Lemma stats_face know nh : fs_face (stats_fwd know nh) = nh_face nh.
Proof. unfold stats_fwd. by destruct (know (nh_face nh)) as [[? ?]|]. Qed.
Lemma probe_face know nh : fs_face (stats_probe know nh) = nh_face nh.
Proof. unfold stats_probe. destruct (know (nh_face nh)) as [[? ?]|]; [|done]. by destruct (_ =? _)%Z. Qed.

(** the tuple says what is preferred *)
Lemma rank_fwd know h1 h2 : rank_lt (forwarding_rank (stats_fwd know h2)) (forwarding_rank (stats_fwd know h1)) = false <-> preferred know h1 h2.
Proof.
  rewrite rank_nlex. unfold preferred, standing_of, stats_fwd, forwarding_rank, cheaper, RTT_NO_MEASUREMENT, RTT_TIMEOUT, NANOSECONDS_MAX.
  destruct (know (nh_face h1)) as [[r1 s1]|], (know (nh_face h2)) as [[r2 s2]|]; simpl;
    repeat match goal with |- context [decide (?a = ?b)%Z] => destruct (decide (a = b)%Z); destruct (Z.eqb_spec a b); try lia; simpl end; lia.
Qed.
Lemma best_face_spec know el l : match best_face know el l with
  | Some g => exists h, h ∈ l /\ el h = true /\ nh_face h = g /\ forall h', h' ∈ l -> el h' = true -> preferred know h h'
  | None => forall h, h ∈ l -> el h = false
  end.
Proof.
  unfold best_face. pose proof (ranked_head forwarding_rank (map (stats_fwd know) (List.filter el l))) as H.
  assert (Hin : forall h, h ∈ List.filter el l <-> h ∈ l /\ el h = true) by (intros h; rewrite !elem_of_list_In; apply List.filter_In).
  destruct (ranked _ _) as [|x r]; simpl.
  - intros h Hh. destruct (el h) eqn:E; [|done]. assert (Hx : h ∈ List.filter el l) by (by apply Hin). destruct (List.filter el l); [by apply elem_of_nil in Hx|done].
  - destruct H as [Hx Hmin]. apply elem_of_list_fmap in Hx as (h & -> & Hh). apply Hin in Hh as [Hh He]. exists h. split; [done|]. split; [done|]. split; [by rewrite stats_face|].
    intros h' Hh' He'. apply rank_fwd, Hmin. apply elem_of_list_fmap. exists h'. split; [done|by apply Hin].
Qed.
Lemma preferred_anti know h1 h2 : preferred know h1 h2 -> preferred know h2 h1 -> nh_face h1 = nh_face h2.
Proof. unfold preferred, cheaper. destruct (standing_of know h1), (standing_of know h2); intros; try done; lia. Qed.

Lemma choose_in n j off r l g : choose_loop n j off r l = Some g -> exists x, x ∈ l /\ fs_face x = g.
Proof.
  revert j off. induction l as [|x l IH]; intros j off H; cbn [choose_loop] in H; [done|]. cbv zeta in H. destruct (dle r _); [injection H as <-; exists x; split; [left|done]|].
  apply IH in H as (y & Hy & E). exists y. split; [by right|done].
Qed.
Lemma face_to_probe_spec know al r l : match face_to_probe know al r l with
  | Some (Some g) => exists h, h ∈ l /\ al h = true /\ nh_face h = g /\
      ((exists h', h' ∈ l /\ al h' = true /\ standing_of know h' = Unmeasured) ->
        standing_of know h = Unmeasured /\ forall h', h' ∈ l -> al h' = true -> standing_of know h' = Unmeasured -> cheaper h h')
  | Some None => forall h, h ∈ l -> al h = false
  | None => (exists h, h ∈ l /\ al h = true) /\ forall h, h ∈ l -> al h = true -> standing_of know h <> Unmeasured
  end.
Proof.
  unfold face_to_probe. pose proof (ranked_head probing_rank (map (stats_probe know) (List.filter al l))) as H. pose proof (ranked_spec probing_rank (map (stats_probe know) (List.filter al l))) as (_ & Hsub & _).
  assert (Hin : forall h, h ∈ List.filter al l <-> h ∈ l /\ al h = true) by (intros h; rewrite !elem_of_list_In; apply List.filter_In).
  assert (Hun : forall h, fs_rtt (stats_probe know h) = RTT_NO_MEASUREMENT <-> standing_of know h = Unmeasured).
  { intros h. unfold stats_probe, standing_of, RTT_NO_MEASUREMENT. destruct (know (nh_face h)) as [[rt sr]|]; simpl; [|done]. destruct (Z.eqb_spec rt (-1)), (decide (rt = -1)%Z); try lia; simpl; [done|]. destruct (decide (rt = -2)%Z); split; intros; try done; lia. }
  assert (Hc : forall h h', standing_of know h = Unmeasured -> standing_of know h' = Unmeasured -> rank_lt (probing_rank (stats_probe know h')) (probing_rank (stats_probe know h)) = false -> cheaper h h').
  { intros h h' A B C. apply Hun in A, B. unfold probing_rank in C. rewrite A, B in C. simpl in C. rewrite !probe_face in C. assert (Hco : forall h, fs_cost (stats_probe know h) = nh_cost h) by (intros x; unfold stats_probe; destruct (know (nh_face x)) as [[? ?]|]; [by destruct (_ =? _)%Z|done]).
    rewrite !Hco in C. unfold cheaper. destruct (N.ltb_spec (nh_cost h') (nh_cost h)); simpl in C; [done|]. destruct (N.ltb_spec (nh_cost h) (nh_cost h')); [by left|]. simpl in C. apply N.ltb_ge in C. right. lia. }
  assert (Hlow : forall h h', standing_of know h <> Unmeasured -> standing_of know h' = Unmeasured -> rank_lt (probing_rank (stats_probe know h')) (probing_rank (stats_probe know h)) = true).
  { intros h h' A B. apply Hun in B. rewrite <- Hun in A. unfold probing_rank. rewrite B. simpl. destruct (Z.eqb_spec (fs_rtt (stats_probe know h)) RTT_NO_MEASUREMENT); [done|]. by destruct (fs_rtt (stats_probe know h) =? RTT_TIMEOUT)%Z. }
  destruct (ranked _ _) as [|x rl].
  - intros h Hh. destruct (al h) eqn:E; [|done]. assert (Hx : h ∈ List.filter al l) by (by apply Hin). destruct (List.filter al l); [by apply elem_of_nil in Hx|done].
  - destruct H as [Hx Hmin]. apply elem_of_list_fmap in Hx as (h & -> & Hh). apply Hin in Hh as [Hh He].
    assert (Hm : forall h', h' ∈ l -> al h' = true -> rank_lt (probing_rank (stats_probe know h')) (probing_rank (stats_probe know h)) = false).
    { intros h' A B. apply Hmin. apply elem_of_list_fmap. exists h'. split; [done|by apply Hin]. }
    destruct (Z.eqb_spec (fs_rtt (stats_probe know h)) RTT_NO_MEASUREMENT) as [E|E].
    + apply Hun in E. exists h. split; [done|]. split; [done|]. split; [by rewrite probe_face|]. intros _. split; [done|]. intros h' A B C. apply Hc; [done|done|]. by apply Hm.
    + rewrite Hun in E. assert (Hno : forall h', h' ∈ l -> al h' = true -> standing_of know h' <> Unmeasured).
      { intros h' A B C. specialize (Hm h' A B). rewrite (Hlow h h' E C) in Hm. done. }
      destruct (choose_face r _) as [g|] eqn:Eg.
      * unfold choose_face in Eg; apply choose_in in Eg as (y & Hy & <-). apply Hsub in Hy. apply elem_of_list_fmap in Hy as (h1 & -> & Hh1). apply Hin in Hh1 as [A B]. exists h1. split; [done|]. split; [done|]. split; [by rewrite probe_face|].
        intros (h' & A' & B' & C'). by destruct (Hno h' A' B').
      * split; [by exists h|done].
Qed.
