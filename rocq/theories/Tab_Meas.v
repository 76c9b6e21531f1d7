From stdpp Require Import gmap.
From Verif Require Import Lib Name_Model Name_Proof Packet_Model Nt_Model Nt_Spec Nt_Tree Tree_Model Tree_Proof Tab_Model Tab_Spec Tab_At Tab_Fib Tab_Pit Tab_Pit2.

Definition meas_inv (t : Z) (g : name -> option meas_entry) (c : N) : Prop :=
  (forall n m, g n = Some m -> me_name m = n /\ me_timer m = me_expiry m /\ (t < me_expiry m)%Z) /\ counter_ok c g.
Definition meas_ok (T : tables) : Prop := meas_inv (now T) (fun n => meas_at T n) (meas_n T).
Lemma meas_inv_ext t g g' c : (forall n, g' n = g n) -> meas_inv t g c -> meas_inv t g' c.
Proof.
  intros H [H1 H2]. split; [intros n fe; rewrite H; apply H1|].
  eapply counter_ext; [|exact H2]. intros x. by rewrite H.
Qed.

Definition only_meas_at (n : name) (v : option meas_entry) (T T' : tables) : Prop :=
  (forall k, att T' k = if decide (k = n) then set_meas v (att T n) else att T k) /\
  fib_n T' = fib_n T /\ pit_n T' = pit_n T /\ sc_n T' = sc_n T /\ now T' = now T.
Lemma only_meas_frame n v T T' : only_meas_at n v T T' ->
  (forall m, meas_at T' m = if decide (m = n) then v else meas_at T m) /\
  same_fib T T' /\ same_pit T T' /\ same_sc T T' /\ now T' = now T.
Proof.
  intros (H & H1 & H2 & H3 & H4). unfold same_fib, same_pit, same_sc.
  split; [intros m; rewrite !meas_at_att, H; by destruct (decide (m = n))|].
  split; [split; [|done]; intros k; rewrite !fib_at_att, H; destruct (decide (_ = n)) as [->|]; done|].
  split; [split; [|done]; intros k; rewrite !pit_at_att, H; destruct (decide (_ = n)) as [->|]; done|].
  split; [|done]. split; [|done]. intros k; rewrite !sc_at_att, H; destruct (decide (_ = n)) as [->|]; done.
Qed.

(** the entry [get] makes *)
Definition fresh_meas (n : name) (t : Z) : meas_entry :=
  MeasEntry n (t + INITIAL_LIFETIME) (t + INITIAL_LIFETIME) [].

Lemma meas_set_ok n v m T T' : meas_ok T -> only_meas_at n (Some v) T T' -> meas_at T n = Some m ->
  me_name v = n -> me_timer v = me_expiry v -> (now T < me_expiry v)%Z -> meas_n T' = meas_n T -> meas_ok T'.
Proof.
  intros [H1 H2] Hof Hm Hv1 Hv2 Hv3 Hc. pose proof (only_meas_frame _ _ _ _ Hof) as (Hv & _ & _ & _ & Hnow).
  unfold meas_ok. rewrite Hnow, Hc. split.
  - intros k x. rewrite Hv. destruct (decide (k = n)) as [->|]; [|apply H1]. by intros [= <-].
  - eapply counter_ext; [|exact H2]. intros k. cbv beta. rewrite Hv.
    destruct (decide (k = n)) as [->|]; [|done]. rewrite Hm. split; intros _; eauto.
Qed.

Lemma meas_get_nte_ok n T : tree_ok T -> meas_ok T -> present T n ->
  exists T', meas_get_nte n T = Some T' /\ tree_ok T' /\ meas_ok T' /\
    only_meas_at n (Some (default (fresh_meas n (now T)) (meas_at T n))) T T' /\
    (forall k, present T k -> present T' k) /\
    meas_n T' = match meas_at T n with None => inc64 (meas_n T) | Some _ => meas_n T end.
Proof.
  intros Ht Hok Hp. destruct Hp as [e He]. assert (Hp : present T n) by by exists e. unfold meas_get_nte. rewrite He.
  assert (He' : att T n = e) by (unfold att; by rewrite He).
  assert (Hm : meas_at T n = e_meas e) by by rewrite meas_at_att, He'. rewrite Hm.
  destruct (e_meas e) as [m|] eqn:Em; cbn [default].
  - exists T. split; [done|]. split; [done|]. split; [done|]. split; [|done]. split; [|done].
    intros k. destruct (decide (k = n)) as [->|]; [|done]. rewrite He'. change (set_meas _ e) with (set_meas (Some m) e). rewrite <- Em. by destruct e.
  - set (T1 := set_meas_n (inc64 (meas_n T)) (upd n (set_meas (Some (fresh_meas n (now T)))) T)).
    exists T1. split; [done|]. split; [by eapply tree_ok_tr, upd_tree_ok|].
    assert (Hof : only_meas_at n (Some (fresh_meas n (now T))) T T1).
    { split; [|done]. intros k. unfold T1. change (att (set_meas_n ?c ?X) k) with (att X k). by rewrite upd_att. }
    split; [|split; [done|split; [intros k Hk; by apply upd_present|done]]].
    pose proof (only_meas_frame _ _ _ _ Hof) as (Hv & _). destruct Hok as [H1 H2]. split.
    + intros k x. rewrite Hv. destruct (decide (k = n)) as [->|]; [|apply H1]. intros [= <-].
      split; [done|]. split; [done|]. change (now T1) with (now T). simpl. unfold INITIAL_LIFETIME. lia.
    + change (meas_n T1) with (inc64 (meas_n T)). apply (counter_add (fun k => meas_at T k) _ _ n).
      * rewrite Hm. by intros [].
      * intros k. rewrite Hv. destruct (decide (k = n)) as [->|]; [|tauto]. split; eauto.
      * exact H2.
Qed.

Lemma meas_get_at_ok p T : tree_ok T -> meas_ok T -> length p <= 32 ->
  exists T1 T', lookup_nte p T = Some T1 /\ meas_get_nte p T1 = Some T' /\ tree_ok T' /\ meas_ok T' /\
    only_meas_at p (Some (default (fresh_meas p (now T)) (meas_at T p))) T T' /\
    meas_n T' = match meas_at T p with None => inc64 (meas_n T) | Some _ => meas_n T end.
Proof.
  intros Ht Hok L. destruct (lookup_nte_ok p T Ht L) as (T1 & -> & Ht1 & (C1 & C2 & C3 & C4 & C5) & Ha & Hp & _).
  assert (Hma : forall k, meas_at T1 k = meas_at T k) by (intros k; by rewrite !meas_at_att, Ha).
  destruct (meas_get_nte_ok p T1 Ht1) as (T' & HT' & Ht' & Hok' & Hof & _ & Hn); [|done|].
  { unfold meas_ok. rewrite C4, C5. eapply meas_inv_ext; [|exact Hok]. done. }
  exists T1, T'. split; [done|]. split; [done|]. split; [done|]. split; [done|].
  rewrite C5, !Hma in Hof. rewrite Hma, C4 in Hn. split; [|done].
  destruct Hof as (Hof & H1 & H2 & H3 & H4). split; [|split; [|split; [|split]]]; try congruence.
  intros k. rewrite Hof, !Ha. done.
Qed.

Lemma meas_extend_ok n lt T m : tree_ok T -> meas_ok T -> meas_at T n = Some m ->
  exists T', meas_extend n lt T = Some T' /\ tree_ok T' /\ meas_ok T' /\
    only_meas_at n (Some (if (me_expiry m <? now T + lt)%Z then MeasEntry n (now T + lt) (now T + lt) (me_info m) else m)) T T' /\
    meas_n T' = meas_n T.
Proof.
  intros Ht Hok Hm. assert (Hp : present T n) by (apply meas_at_present; eauto). destruct Hp as [e He].
  assert (Hp : present T n) by by exists e. unfold meas_extend. rewrite He.
  assert (Em : e_meas e = Some m) by (unfold meas_at in Hm; by rewrite He in Hm). rewrite Em.
  destruct Hok as [H1 H2]. pose proof (H1 n m Hm) as (Hn1 & Hn2 & Hn3). assert (Hok : meas_ok T) by done.
  destruct (Z.leb_spec (now T + lt) (me_expiry m)).
  - exists T. rewrite (proj2 (Z.ltb_ge _ _)) by lia. split; [done|]. split; [done|]. split; [done|]. split; [|done].
    split; [|done]. intros k. destruct (decide (k = n)) as [->|]; [|done]. unfold att. rewrite He. simpl. rewrite <- Em. by destruct e.
  - rewrite (proj2 (Z.ltb_lt _ _)) by lia. rewrite Hn1. eexists. split; [done|]. split; [by apply upd_tree_ok|].
    assert (Hof : only_meas_at n (Some (MeasEntry n (now T + lt) (now T + lt) (me_info m))) T
      (upd n (set_meas (Some (MeasEntry n (now T + lt) (now T + lt) (me_info m)))) T)).
    { split; [|done]. intros k. by rewrite upd_att. }
    split; [|done]. eapply meas_set_ok; [done|exact Hof|done|done|done| |done]. simpl. lia.
Qed.

(** the scheduler *)
Lemma meas_cleanup_ok n T : tree_ok T -> present T n ->
  tree_ok (meas_cleanup n T) /\ only_meas_at n None T (meas_cleanup n T) /\ meas_n (meas_cleanup n T) = dec64 (meas_n T).
Proof.
  intros Ht Hp. unfold meas_cleanup. set (T1 := upd n (set_meas None) T).
  destruct (erase_nte_ok n T1) as (Ht2 & (C1 & C2 & C3 & C4 & C5) & Ha); [by apply upd_tree_ok|by apply upd_present|].
  split; [by eapply tree_ok_tr, Ht2|]. split; [|done].
  split; [|done]. intros k. change (att (set_meas_n ?c ?X) k) with (att X k). rewrite Ha. unfold T1. by rewrite upd_att.
Qed.

Definition fired (l : list name) (T T' : tables) : Prop :=
  (forall k, att T' k = if bool_decide (k ∈ l) then set_meas None (att T k) else att T k) /\
  fib_n T' = fib_n T /\ pit_n T' = pit_n T /\ sc_n T' = sc_n T /\ now T' = now T.
Lemma cleanup_list_ok l T : tree_ok T -> NoDup l -> (forall n, n ∈ l -> is_Some (meas_at T n)) ->
  counter_ok (meas_n T) (fun n => meas_at T n) ->
  let T' := foldl (fun T n => meas_cleanup n T) T l in
  tree_ok T' /\ fired l T T' /\ counter_ok (meas_n T') (fun n => meas_at T' n).
Proof.
  revert T. induction l as [|n l IH]; intros T Ht Hn Hs Hc; cbn [foldl].
  - split; [done|]. split; [|done]. split; [|done]. intros k. by rewrite bool_decide_eq_false_2 by apply not_elem_of_nil.
  - apply NoDup_cons in Hn as [Hnl Hn].
    assert (Hp : present T n) by (apply meas_at_present, Hs; by left).
    destruct (meas_cleanup_ok n T Ht Hp) as (Ht1 & Hof & Hcnt). pose proof (only_meas_frame _ _ _ _ Hof) as (Hv & _).
    destruct (IH (meas_cleanup n T)) as (Ht2 & (Hatt & C1 & C2 & C3 & C5) & Hc2); [done|done| | |].
    + intros k Hk. rewrite Hv. destruct (decide (k = n)) as [->|]; [done|]. apply Hs. by right.
    + rewrite Hcnt. apply (counter_del (fun k => meas_at T k) _ _ n); [apply Hs; by left| |done].
      intros k. cbv beta. rewrite Hv. destruct (decide (k = n)) as [->|]; [|tauto]. split; [by intros []|by intros []].
    + split; [done|]. split; [|done]. destruct Hof as (Ha & D1 & D2 & D3 & D5).
      split; [|split; [|split; [|split]]]; try congruence.
      intros k. rewrite Hatt, Ha. destruct (decide (k = n)) as [->|Hne].
      * rewrite (bool_decide_eq_true_2 (n ∈ n :: l)) by by left. case_bool_decide; done.
      * do 2 case_bool_decide; try done.
        -- exfalso. apply H0. by right.
        -- apply elem_of_cons in H0 as [|]; done.
Qed.

Lemma meas_due_ok T : NoDup (meas_due T) /\
  forall n, n ∈ meas_due T <-> exists m, meas_at T n = Some m /\ (me_timer m <= now T)%Z.
Proof.
  unfold meas_due. split.
  - assert (Hx : forall l : list (name * nte), NoDup (l.*1) -> 
      NoDup (omap (fun '(n, e) => match e_meas e with Some m => if (me_timer m <=? now T)%Z then Some n else None | None => None end) l)
      /\ forall n, n ∈ omap (fun '(n, e) => match e_meas e with Some m => if (me_timer m <=? now T)%Z then Some n else None | None => None end) l -> n ∈ l.*1).
    { induction l as [|[n e] l IH]; intros Hn; [split; [constructor|by intros n ?%elem_of_nil]|].
      change ((n, e) :: l).*1 with (n :: l.*1) in *. apply NoDup_cons in Hn as [Hnl Hn]. destruct (IH Hn) as [I1 I2].
      change (omap ?f ((n, e) :: l)) with (match f (n, e) with Some y => y :: omap f l | None => omap f l end). cbv beta iota.
      destruct (e_meas e) as [m|]; [destruct (me_timer m <=? now T)%Z|].
      - split; [constructor; [|done]; intros H; by apply Hnl, I2|]. intros k [->|?]%elem_of_cons; [by left|right; auto].
      - split; [done|]. intros; right; auto.
      - split; [done|]. intros; right; auto. }
    apply Hx. apply NoDup_fst_map_to_list.
  - intros n. rewrite elem_of_list_omap. unfold meas_at. split.
    + intros ([k e] & Hin%elem_of_map_to_list & Hx). destruct (e_meas e) as [m|] eqn:Em; [|done].
      destruct (Z.leb_spec (me_timer m) (now T)); [|done]. injection Hx as <-. rewrite Hin, Em. eauto.
    + intros (m & Hm & Hle). destruct (tr T !! n) as [e|] eqn:He; [|done]. exists (n, e).
      split; [by apply elem_of_map_to_list|]. rewrite Hm. rewrite (proj2 (Z.leb_le _ _)) by lia. done.
Qed.

Lemma tick_ok d T : tree_ok T -> meas_ok T -> (0 <= d)%Z ->
  tree_ok (tick d T) /\ meas_ok (tick d T) /\ now (tick d T) = (now T + d)%Z /\
  (forall n, meas_at (tick d T) n = match meas_at T n with
                                    | Some m => if (me_expiry m <=? now T + d)%Z then None else Some m
                                    | None => None
                                    end) /\
  (forall k, e_fib (att (tick d T) k) = e_fib (att T k) /\ e_pit (att (tick d T) k) = e_pit (att T k) /\ e_sc (att (tick d T) k) = e_sc (att T k)) /\
  fib_n (tick d T) = fib_n T /\ pit_n (tick d T) = pit_n T /\ sc_n (tick d T) = sc_n T.
Proof.
  intros Ht [H1 H2] Hd. unfold tick. set (T1 := set_now (now T + d) T).
  destruct (meas_due_ok T1) as [Hnd Hdue].
  destruct (cleanup_list_ok (meas_due T1) T1) as (Ht2 & (Ha & C1 & C2 & C3 & C5) & Hc); [by eapply tree_ok_tr, Ht|done| |exact H2|].
  { intros n (m & Hm & _)%Hdue. by eexists. }
  set (T' := foldl _ T1 _) in *.
  assert (Hm : forall n, meas_at T' n = match meas_at T n with
                                    | Some m => if (me_expiry m <=? now T + d)%Z then None else Some m
                                    | None => None end).
  { intros n. rewrite (meas_at_att T'), Ha. change (att T1 n) with (att T n). rewrite (meas_at_att T n).
    change (meas_at T1) with (meas_at T) in Hdue. 
    case_bool_decide as Hin.
    - apply Hdue in Hin as (m & Hm & Hle). rewrite meas_at_att in Hm. rewrite Hm. simpl.
      pose proof (H1 n m) as Hx. cbv beta in Hx. rewrite meas_at_att in Hx. destruct (Hx Hm) as (_ & Htm & _). 
      simpl in Hle. rewrite Htm in Hle. by rewrite (proj2 (Z.leb_le _ _)) by lia.
    - destruct (e_meas (att T n)) as [m|] eqn:Em; [|done].
      pose proof (H1 n m) as Hx. cbv beta in Hx. rewrite meas_at_att in Hx. destruct (Hx Em) as (_ & Htm & _).
      destruct (Z.leb_spec (me_expiry m) (now T + d)); [|done]. exfalso. apply Hin, Hdue. exists m. rewrite meas_at_att.
      split; [done|]. simpl. lia. }
  split; [done|]. split; [|split; [done|split; [done|split; [|done]]]].
  - unfold meas_ok. rewrite C5. split; [|done]. intros n m. rewrite Hm. destruct (meas_at T n) as [m'|] eqn:Em; [|done].
    destruct (Z.leb_spec (me_expiry m') (now T + d)); [done|]. intros [= <-]. destruct (H1 n m' Em) as (? & ? & ?). done.
  - intros k. rewrite !Ha. case_bool_decide; done.
Qed.
