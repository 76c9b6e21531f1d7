(** Proofs about retransmission suppression. *)
From stdpp Require Import gmap.
From Verif Require Import Lib Name_Model Packet_Model Tab_Model Fw_Model St_Model St_Retx St_Spec.

Local Open Scope Z_scope.

Lemma below_value m e b : below m e b <-> value_below m e b.
Proof. unfold below, value_below. destruct (Z.leb_spec 0 e); case_decide; lia. Qed.

Lemma idle_spec t e : has_pending_out t e = false <-> idle t (pe_out e).
Proof.
  unfold has_pending_out, idle. split.
  - intros H r Hr. destruct (or_nack r) eqn:En; [by left|right]. apply Z.nle_gt. intros Hle.
    assert (existsb (fun r => (t <=? fr_expiry (or_rec r))%Z && match or_nack r with None => true | Some _ => false end) (pe_out e) = true); [|congruence].
    apply existsb_exists. exists r. split; [by apply elem_of_list_In|]. rewrite En. by rewrite (proj2 (Z.leb_le _ _) Hle).
  - intros H. apply not_true_iff_false. intros (r & Hr & Hb)%existsb_exists. apply elem_of_list_In in Hr. apply andb_prop in Hb as [H1%Z.leb_le H2].
    destruct (H r Hr) as [Hn|Hn]; [by destruct (or_nack r)|lia].
Qed.

Lemma max_by_spec l b : let lt := (fun a b => (fr_renewed (or_rec a) <? fr_renewed (or_rec b))%Z) in
  max_by lt b l ∈ b :: l /\ forall r, r ∈ b :: l -> fr_renewed (or_rec r) <= fr_renewed (or_rec (max_by lt b l)).
Proof.
  intros lt. revert b. induction l as [|x l IH]; intros b; simpl.
  - split; [left|]. intros r Hr%elem_of_list_singleton. by subst.
  - destruct (IH (if lt b x then x else b)) as [H1 H2]. split.
    + apply elem_of_cons in H1 as [->|H1]; [destruct (lt b x); [right; left|left]|by right; right].
    + assert (Hb : fr_renewed (or_rec b) <= fr_renewed (or_rec (if lt b x then x else b)) /\ fr_renewed (or_rec x) <= fr_renewed (or_rec (if lt b x then x else b))).
      { unfold lt. destruct (Z.ltb_spec (fr_renewed (or_rec b)) (fr_renewed (or_rec x))); lia. }
      pose proof (H2 _ (elem_of_list_here _ _)) as H3. intros r [->|[->|Hr]%elem_of_cons]%elem_of_cons; [lia|lia|]. apply H2. by right.
Qed.
Lemma last_spec e t : get_last_outgoing e = Some t <-> last_sent (pe_out e) t.
Proof.
  unfold get_last_outgoing, last_sent. destruct (pe_out e) as [|r l].
  - split; [done|]. intros [(r & Hr & _) _]. by apply elem_of_nil in Hr.
  - destruct (max_by_spec l r) as [H1 H2]. split.
    + intros [= <-]. split; [by eexists|done].
    + intros [(r' & Hr' & <-) Hmax]. f_equal. apply Z.le_antisymm; [by apply Hmax|by apply H2].
Qed.

Lemma stored_none si : stored_interval si None <-> info_get RETX_INFO si = None.
Proof.
  unfold stored_interval, info_get. induction si as [|[id v] si IH]; simpl; [split; [done|constructor]|].
  unfold RETX_INFO in *. destruct (N.eqb_spec id 1020) as [->|Hn]; simpl.
  - split; [|done]. by intros [? ?]%Forall_cons_1.
  - rewrite <- IH. rewrite Forall_cons. simpl. tauto.
Qed.
Lemma stored_some si iv : stored_interval si (Some iv) <-> info_get RETX_INFO si = Some [iv].
Proof.
  unfold stored_interval, info_get. induction si as [|[id v] si IH]; simpl.
  - split; [|done]. by intros ([|??] & ? & ? & ?).
  - unfold RETX_INFO in *. destruct (N.eqb_spec id 1020) as [->|Hn]; simpl.
    + split.
      * intros ([|x si1] & si2 & [= E E'] & HF); [by subst|]. subst x. by apply Forall_cons_1 in HF as [HF _].
      * intros [= ->]. by exists [], si.
    + rewrite <- IH. split.
      * intros ([|x si1] & si2 & [= E E'] & HF); [by subst|]. apply Forall_cons_1 in HF as [_ HF]. by exists si1, si2.
      * intros (si1 & si2 & -> & HF). exists ((id, v) :: si1), si2. split; [done|]. by constructor.
Qed.
Lemma interval_spec c si iv : interval_now c si iv -> info_interval c si = iv.
Proof.
  unfold interval_now, info_interval. intros [H%stored_some|[H ->]]; [by rewrite H|].
  destruct (info_get RETX_INFO si) as [[|x [|? ?]]|] eqn:E; try done. apply stored_some in E. by destruct (H x).
Qed.
Lemma interval_is c si : interval_now c si (info_interval c si).
Proof.
  unfold interval_now, info_interval. destruct (info_get RETX_INFO si) as [[|x [|y l]]|] eqn:E; try (right; split; [|done]; intros iv' H%stored_some; congruence).
  left. by apply stored_some.
Qed.
Lemma info_set_stored iv si : stored_interval (info_set RETX_INFO [iv] si) (Some iv).
Proof. by exists [], (List.filter (fun x => negb (fst x =? 1020)%N) si). Qed.
Lemma info_set_others iv si : others_kept si (info_set RETX_INFO [iv] si).
Proof.
  intros id v Hn. unfold info_set. rewrite elem_of_cons. split.
  - intros [[= -> _]|H]; [done|]. apply elem_of_list_In, filter_In in H as [H _]. by apply elem_of_list_In.
  - intros H. right. apply elem_of_list_In, filter_In. split; [by apply elem_of_list_In|]. simpl. by destruct (N.eqb_spec id RETX_INFO).
Qed.

(** growth: min max (iv * mult) *)
Lemma grow_bounds c iv iv' : 0 < iv -> iv <= rx_max c -> rx_max c < 2 ^ 24 -> below_one (rx_mult c) = false ->
  grow c iv = Some iv' -> iv <= iv' <= rx_max c.
Proof.
  intros H1 H2 H3 Hb. unfold grow. destruct (scale iv (rx_mult c)) as [v|] eqn:E; [|done]. intros [= <-].
  destruct (rx_mult c) as [|neg|m e] eqn:Em; [done..|]. apply below_one_spec in Hb as [Hm Hb]. cut (iv <= v); [lia|].
  destruct (at_least_below (iv * m) e (2 ^ 24)) as [Hl|Hl].
  - pose proof (scale_large iv m e v ltac:(lia) Hm Hl E). lia.
  - destruct (scale_small iv m e ltac:(lia) Hm Hl) as (v' & E' & Hv). rewrite E in E'. injection E' as <-.
    unfold at_least in Hb. destruct (Z.leb_spec 0 e) as [He|He].
    + pose proof (pow2_pos e He). nia.
    + pose proof (pow2_pos (- e) ltac:(lia)). nia.
Qed.
Lemma grow_value c iv m e : 0 < iv <= rx_max c -> rx_max c < 2 ^ 24 -> rx_mult c = Fin m e -> 0 < m -> value_below (iv * m) e (2 ^ 62) ->
  exists v, grow c iv = Some (Z.min (rx_max c) v) /\ (value_below (iv * m) e (2 ^ 24) -> value_near (iv * m) e v) /\ (~ value_below (iv * m) e (2 ^ 24) -> 2 ^ 24 <= v).
Proof.
  intros H1 H2 Em Hm Hb. apply below_value in Hb. destruct (scale_defined iv m e ltac:(lia) Hm Hb) as (v & E). exists v. unfold grow. rewrite Em, E. split; [done|]. split.
  - intros Hl%below_value. destruct (scale_small iv m e ltac:(lia) Hm Hl) as (v' & E' & Hv). rewrite E in E'. injection E' as <-.
    revert Hv. unfold value_near. destruct (decide (0 <= e)) as [He|He]; [rewrite (proj2 (Z.leb_le 0 e) He)|rewrite (proj2 (Z.leb_gt 0 e)) by lia]; done.
  - intros Hl. rewrite <- below_value in Hl. destruct (at_least_below (iv * m) e (2 ^ 24)) as [Hx|Hx]; [|done]. by apply (scale_large iv m e v ltac:(lia) Hm Hx E).
Qed.
