(** Link reliability: the invariant. *)
From stdpp Require Import gmap.
From Verif Require Import Lib Lp_Model Rel_Model Rel_Spec Rel_Win.

Local Open Scope N_scope.

(** * the log *)
Definition neutral (o : rel_out) : Prop := match o with OTx _ _ _ _ | OFate _ _ => False | _ => True end.
Lemma retx_neutral o id seq l : (forall i q tx, o <> OTx i q tx true) -> retransmissions id seq (o :: l) = retransmissions id seq l.
Proof. intros Ho. unfold retransmissions. cbn. destruct o as [|? ?|i q tx []|?|?]; cbn; try done. by destruct (Ho i q tx). Qed.
Lemma retx_same id seq tx l : retransmissions id seq (OTx id seq tx true :: l) = retransmissions id seq l + 1.
Proof. unfold retransmissions. cbn. rewrite Nat.eqb_refl, N.eqb_refl. cbn. lia. Qed.
Lemma retx_other id seq i q tx l : i <> id \/ q <> seq -> retransmissions id seq (OTx i q tx true :: l) = retransmissions id seq l.
Proof. intros H. unfold retransmissions. cbn. destruct (Nat.eqb_spec i id), (N.eqb_spec q seq); cbn; try done. destruct H; done. Qed.
Lemma retx_le id seq o l : retransmissions id seq l <= retransmissions id seq (o :: l).
Proof. unfold retransmissions. cbn. destruct (is_retx _ _ _); cbn; lia. Qed.
Lemma retx_none id seq l : (forall tx, OTx id seq tx true ∉ l) -> retransmissions id seq l = 0.
Proof.
  induction l as [|o l IH]; [done|]. intros H. destruct o as [|? ?|i q tx []|?|?]; try (rewrite retx_neutral by (intros; discriminate); apply IH; intros tx' ?; apply (H tx'); by right).
  destruct (decide (i = id /\ q = seq)) as [[-> ->]|Hd]; [destruct (H tx); left|].
  rewrite retx_other; [apply IH; intros tx' ?; apply (H tx'); by right|]. destruct (decide (i = id)); [right; tauto|by left].
Qed.
Lemma retx_some id seq l : 0 < retransmissions id seq l -> exists tx, OTx id seq tx true ∈ l.
Proof.
  unfold retransmissions. induction l as [|o l IH]; cbn; [lia|]. destruct (is_retx id seq o) eqn:E.
  - intros _. destruct o as [|? ?|i q tx []|?|?]; cbn in E; try done. exists tx. apply andb_true_iff in E as [->%Nat.eqb_eq ->%N.eqb_eq]. left.
  - intros H. destruct (IH H) as [tx ?]. exists tx. by right.
Qed.
Lemma fates_neutral o id l : (forall i x, o <> OFate i x) -> fates id (o :: l) = fates id l.
Proof. intros Ho. unfold fates. cbn. destruct o as [|i x|? ? ? ?|?|?]; cbn; try done. by destruct (Ho i x). Qed.
Lemma fates_elem id o l : o ∈ fates id l <-> o ∈ l /\ exists x, o = OFate id x.
Proof.
  unfold fates. rewrite elem_of_list_In, filter_In, <- elem_of_list_In. split; intros [H1 H2]; (split; [done|]).
  - destruct o as [|i x|? ? ? ?|?|?]; cbn in H2; try done. apply Nat.eqb_eq in H2 as ->. eauto.
  - destruct H2 as [x ->]. cbn. apply Nat.eqb_refl.
Qed.
Lemma current_push id seq tx o l : (forall i q b, o <> OTx i q tx b) -> current id seq tx l -> current id seq tx (o :: l).
Proof.
  intros Ho (b & l1 & l2 & -> & H). exists b, (o :: l1), l2. split; [done|]. intros i q c [E|E]%elem_of_cons; [|by apply (H i q c)].
  by apply (Ho i q c).
Qed.
Lemma current_new id seq tx b l : current id seq tx (OTx id seq tx b :: l).
Proof. exists b, [], l. split; [done|]. intros ? ? ? ?%elem_of_nil. done. Qed.
Lemma current_elem id seq tx l : current id seq tx l -> exists b, OTx id seq tx b ∈ l.
Proof. intros (b & l1 & l2 & -> & _). exists b. apply elem_of_app. right. left. Qed.
Lemma acked_push id seq o l : acked id seq l -> acked id seq (o :: l).
Proof. intros (tx & l1 & l2 & -> & H). exists tx, (o :: l1), l2. done. Qed.

(** * the invariant *)
Section inv.
  Variable max_retx : N.
  Definition done_ok (id : nat) (x : fate) (l : list rel_out) : Prop :=
    (exists seq tx b, OTx id seq tx b ∈ l) /\
    match x with
    | Exhausted => exists seq, retransmissions id seq l = max_retx /\ exists tx b, OTx id seq tx b ∈ l
    | _ => (forall seq tx b, OTx id seq tx b ∈ l -> acked id seq l) /\
           (x = Retransmitted <-> exists seq tx, OTx id seq tx true ∈ l)
    end.
  Lemma done_push id x o l :
    (forall seq tx b, o <> OTx id seq tx b) -> done_ok id x l -> done_ok id x (o :: l).
  Proof.
    intros Ho [(q & t & b & H1) H2]. split; [exists q, t, b; by right|].
    assert (T : forall q t b, OTx id q t b ∈ o :: l -> OTx id q t b ∈ l) by (intros ??? [E|?]%elem_of_cons; [|done]; by destruct (Ho q0 t0 b0)).
    destruct x.
    - destruct H2 as [H2 H3]. split; [intros q' t' b' Hx%T; apply acked_push; eauto|]. split; [done|].
      intros (q' & t' & Hx%T). apply H3. eauto.
    - destruct H2 as [H2 H3]. split; [intros q' t' b' Hx%T; apply acked_push; eauto|]. split; [|done].
      intros _. destruct H3 as [(q' & t' & Hx) _]; [done|]. exists q', t'. by right.
    - destruct H2 as (q' & Hq & t' & b' & Hx). exists q'. split; [|exists t', b'; by right]. rewrite <- Hq.
      destruct o as [|?|i r z []|?|?]; try (apply retx_neutral; intros; discriminate).
      apply retx_other. destruct (decide (i = id)) as [->|]; [|by left]. by destruct (Ho r z true).
  Qed.
  Lemma again_push id o l (P : Prop) :
    (forall seq tx, o <> OTx id seq tx true) -> (P <-> exists seq tx, OTx id seq tx true ∈ l) -> (P <-> exists seq tx, OTx id seq tx true ∈ o :: l).
  Proof.
    intros Ho ->. split; intros (q & t & Hx); exists q, t; [by right|]. apply elem_of_cons in Hx as [E|?]; [|done]. by destruct (Ho q t).
  Qed.
  Record invl (m : gmap N unacked) (n : gmap nat netpkt) (k : nat) (l : list rel_out) : Prop := {
    i_un : forall tx u, m !! tx = Some u -> exists np, n !! ua_net u = Some np /\ tx ∈ np_frags np;
    i_net : forall id np, n !! id = Some np ->
      (id < k)%nat /\ NoDup (np_frags np) /\ forall tx, tx ∈ np_frags np -> exists u, m !! tx = Some u /\ ua_net u = id;
    i_frag : forall tx u, m !! tx = Some u -> exists seq,
      lp_seq (ua_pkt u) = Some seq /\ lp_txseq (ua_pkt u) = Some tx /\ is_Some (ua_timer u) /\
      ua_retx u = retransmissions (ua_net u) seq l /\ current (ua_net u) seq tx l;
    i_uniq : forall tx1 u1 tx2 u2, m !! tx1 = Some u1 -> m !! tx2 = Some u2 -> ua_net u1 = ua_net u2 ->
      lp_seq (ua_pkt u1) = lp_seq (ua_pkt u2) -> tx1 = tx2;
    i_fate : forall id, (length (fates id l) + (if decide (is_Some (n !! id)) then 1 else 0))%nat = (if decide (id < k)%nat then 1 else 0)%nat;
    i_again : forall id np, n !! id = Some np -> (np_retx np = true <-> exists seq tx, OTx id seq tx true ∈ l);
    i_old : forall id seq tx b, OTx id seq tx b ∈ l -> (id < k)%nat;
    i_max : forall id seq, retransmissions id seq l <= max_retx;
    i_sent : forall id np seq tx b, n !! id = Some np -> OTx id seq tx b ∈ l ->
      (exists tx u, m !! tx = Some u /\ ua_net u = id /\ lp_seq (ua_pkt u) = Some seq) \/ acked id seq l;
    i_done : forall id x, OFate id x ∈ l -> done_ok id x l
  }.

  (** pushing something that is not about fragments or fates *)
  Lemma inv_neutral m n k l o : neutral o -> invl m n k l -> invl m n k (o :: l).
  Proof.
    intros Ho [].
    assert (R : forall id seq, retransmissions id seq (o :: l) = retransmissions id seq l) by (intros; apply retx_neutral; intros ??? ->; done).
    assert (F : forall id, fates id (o :: l) = fates id l) by (intros; apply fates_neutral; intros ?? ->; done).
    assert (T : forall id seq tx b, OTx id seq tx b ∈ o :: l <-> OTx id seq tx b ∈ l).
    { intros. rewrite elem_of_cons. split; [intros [<-|?]; done|by right]. }
    assert (T' : forall id x, OFate id x ∈ o :: l <-> OFate id x ∈ l).
    { intros. rewrite elem_of_cons. split; [intros [<-|?]; done|by right]. }
    split; auto.
    - intros tx u Hu. destruct (i_frag0 tx u Hu) as (seq & ? & ? & ? & ? & ?). exists seq. rewrite R. split; [done|]. split; [done|]. split; [done|]. split; [done|].
      apply current_push; [intros ??? ->; done|done].
    - intros id. rewrite F. apply i_fate0.
    - intros id np Hn. apply again_push; [intros ?? ->; done|eauto].
    - intros id seq tx b. rewrite T. apply i_old0.
    - intros. rewrite R. apply i_max0.
    - intros id np seq tx b Hn. rewrite T. intros Ht. destruct (i_sent0 _ _ _ _ _ Hn Ht) as [?|?]; [by left|right; by apply acked_push].
    - intros id x. rewrite T'. intros Hx. apply done_push; [intros ??? ->; done|auto].
  Qed.

  (** a fragment of a network packet is registered *)
  Lemma inv_out m n k l id np seq tx p t z :
    invl m n k l -> n !! id = Some np -> np_retx np = false -> m !! tx = None -> lp_seq p = Some seq -> lp_txseq p = Some tx ->
    (forall tx' u', m !! tx' = Some u' -> ua_net u' = id -> lp_seq (ua_pkt u') <> Some seq) ->
    invl (<[tx := Unacked p (Some t) z 0 0 id]> m) (<[id := NetPkt (np_frags np ++ [tx]) (np_pkt np) (np_interest np) (np_retx np)]> n) k
         (OTx id seq tx false :: l).
  Proof.
    intros [] Hn Hr Hm Hs Ht Hu. destruct (i_net0 id np Hn) as (Hid & Hnd & Hall).
    assert (Hnew : forall id np, n !! id = Some np -> tx ∉ np_frags np).
    { intros id' np' Hn' Hin. destruct (i_net0 id' np' Hn') as (_ & _ & Ha). destruct (Ha tx Hin) as (u & Hu' & _). congruence. }
    assert (R : forall i q, retransmissions i q (OTx id seq tx false :: l) = retransmissions i q l) by (intros; apply retx_neutral; intros; discriminate).
    split.
    - intros tx' u' [[<- <-]|[Hne Hu']]%lookup_insert_Some.
      + cbn. rewrite lookup_insert. eexists. split; [reflexivity|]. cbn. apply elem_of_app. right. left.
      + destruct (i_un0 tx' u' Hu') as (np' & Hn' & Hin). destruct (decide (id = ua_net u')) as [Hi|Hi].
        * rewrite <- Hi in Hn' |- *. rewrite lookup_insert. eexists. split; [reflexivity|]. cbn. apply elem_of_app. left. congruence.
        * rewrite lookup_insert_ne by done. eauto.
    - intros id' np' [[<- <-]|[Hne Hn']]%lookup_insert_Some; cbn.
      + split; [done|]. split.
        * apply NoDup_app. split; [done|]. split; [|apply NoDup_singleton]. intros x Hx ->%elem_of_list_singleton. by apply (Hnew id np).
        * intros tx' [Hin| ->%elem_of_list_singleton]%elem_of_app; [|rewrite lookup_insert; eauto].
          destruct (Hall tx' Hin) as (u & ? & ?). exists u. split; [|done]. rewrite lookup_insert_ne; [done|]. intros ->. by apply (Hnew id np).
      + destruct (i_net0 id' np' Hn') as (? & ? & Ha). split; [done|]. split; [done|]. intros tx' Hin. destruct (Ha tx' Hin) as (u & ? & ?). exists u.
        split; [|done]. rewrite lookup_insert_ne; [done|]. intros ->. by apply (Hnew id' np').
    - intros tx' u' [[<- <-]|[Hne Hu']]%lookup_insert_Some.
      + exists seq. cbn. split; [done|]. split; [done|]. split; [eauto|]. split; [|apply current_new]. rewrite R. symmetry. apply retx_none.
        intros tx' Hx. assert (E : np_retx np = true) by (apply (i_again0 id np Hn); eauto). congruence.
      + destruct (i_frag0 tx' u' Hu') as (q & ? & ? & ? & ? & ?). exists q. rewrite R. split; [done|]. split; [done|]. split; [done|]. split; [done|].
        apply current_push; [|done]. intros ??? [= _ _ <- _]. done.
    - intros tx1 u1 tx2 u2 [[<- <-]|[Hne1 H1]]%lookup_insert_Some [[<- <-]|[Hne2 H2]]%lookup_insert_Some; cbn; try done.
      + intros E1 E2. exfalso. apply (Hu tx2 u2 H2); [done|]. congruence.
      + intros E1 E2. exfalso. apply (Hu tx1 u1 H1); [done|]. congruence.
      + eauto.
    - intros id'. rewrite fates_neutral by (intros; discriminate). rewrite <- i_fate0. destruct (decide (id' = id)) as [->|].
      + rewrite lookup_insert, Hn. rewrite !decide_True by eauto. done.
      + rewrite lookup_insert_ne by done. done.
    - intros id' np' [[<- <-]|[Hne Hn']]%lookup_insert_Some; cbn.
      + apply again_push; [done|eauto].
      + apply again_push; [done|eauto].
    - intros id' q t' b [E|E]%elem_of_cons; [congruence|eauto].
    - intros. rewrite R. apply i_max0.
    - intros id' np' q t' b Hn' [[= -> -> -> ->]|Hx]%elem_of_cons.
      + left. exists tx. rewrite lookup_insert. eexists. split; [reflexivity|done].
      + assert (exists np0, n !! id' = Some np0) as [np0 Hn0].
        { apply lookup_insert_Some in Hn' as [[<- _]|[_ ?]]; eauto. }
        destruct (i_sent0 _ _ _ _ _ Hn0 Hx) as [(t1 & u1 & Hu1 & ? & ?)|?]; [|right; by apply acked_push].
        left. exists t1, u1. rewrite lookup_insert_ne by congruence. done.
    - intros id' x [E|Hx]%elem_of_cons; [done|]. pose proof (i_done0 id' x Hx) as HD.
      assert (Hne : id' <> id).
      { intros ->. pose proof (i_fate0 id) as HF. rewrite Hn in HF. rewrite !decide_True in HF by eauto.
        assert (OFate id x ∈ fates id l) by (apply fates_elem; eauto). destruct (fates id l); [by apply elem_of_nil in H|cbn in HF; lia]. }
      apply done_push; [congruence|done].
  Qed.

  (** a fragment is retransmitted *)
  Lemma inv_retx m n k l tx u np seq new i t z :
    invl m n k l -> m !! tx = Some u -> n !! ua_net u = Some np -> lp_seq (ua_pkt u) = Some seq -> m !! new = None ->
    np_frags np !! i = Some tx -> ua_retx u < max_retx ->
    invl (delete tx (<[new := Unacked (set_txseq (Some new) (ua_pkt u)) (Some t) z (ua_retx u + 1) 0 (ua_net u)]> m))
         (<[ua_net u := NetPkt (<[i := new]> (np_frags np)) (np_pkt np) (np_interest np) true]> n) k
         (OTx (ua_net u) seq new true :: l).
  Proof.
    intros I Hu Hn Hs Hnew Hi Hmax. pose proof I as []. set (id := ua_net u) in *. assert (Eid : ua_net u = id) by done. destruct (i_net0 id np Hn) as (Hid & Hnd & Hall).
    assert (Htn : tx <> new) by congruence.
    assert (Hnew' : forall id np, n !! id = Some np -> new ∉ np_frags np).
    { intros id' np' Hn' Hin. destruct (i_net0 id' np' Hn') as (_ & _ & Ha). destruct (Ha new Hin) as (u' & Hu' & _). congruence. }
    set (nu := Unacked (set_txseq (Some new) (ua_pkt u)) (Some t) z (ua_retx u + 1) 0 id).
    assert (M : forall x v, delete tx (<[new := nu]> m) !! x = Some v <-> (x = new /\ v = nu) \/ (x <> tx /\ x <> new /\ m !! x = Some v)).
    { intros x v. rewrite lookup_delete_Some, lookup_insert_Some. split.
      - intros [H1 [[H2 H3]|[H2 H3]]]; [left; done|right; done].
      - intros [[-> ->]|(H1 & H2 & H3)]; (split; [done|]); [left; done|right; done]. }
    assert (Mnew : delete tx (<[new := nu]> m) !! new = Some nu) by (apply M; left; done).
    assert (Hfr : forall x, x ∈ <[i := new]> (np_frags np) <-> x = new \/ (x <> tx /\ x ∈ np_frags np)).
    { intros x. split.
      - intros [j Hj]%elem_of_list_lookup. apply list_lookup_insert_Some in Hj as [(-> & -> & _)|(Hne & Hj)]; [by left|]. right. split; [|by eapply elem_of_list_lookup_2].
        intros ->. apply Hne. eapply NoDup_lookup; eauto.
      - intros [->|[Hne [j Hj]%elem_of_list_lookup]]; apply elem_of_list_lookup.
        + exists i. apply list_lookup_insert. by eapply lookup_lt_Some.
        + exists j. rewrite list_lookup_insert_ne; [done|]. intros ->. congruence. }
    assert (Hlog : forall id' seq' tx' b, OTx id' seq' tx' b ∈ OTx id seq new true :: l <-> (id' = id /\ seq' = seq /\ tx' = new /\ b = true) \/ OTx id' seq' tx' b ∈ l).
    { intros. rewrite elem_of_cons. split; (intros [H|H]; [left|right; done]); [injection H as -> -> -> ->; done|destruct H as (-> & -> & -> & ->); done]. }
    destruct (i_frag0 tx u Hu) as (seq0 & Hs0 & _ & _ & Hr0 & Hc0). assert (seq0 = seq) as -> by congruence. fold id in Hr0, Hc0.
    assert (Hnb : np_retx (NetPkt (<[i := new]> (np_frags np)) (np_pkt np) (np_interest np) true) = true) by done.
    split.
    - intros x v [[-> ->]|(H1 & H2 & H3)]%M.
      + cbn. rewrite lookup_insert. eexists. split; [reflexivity|]. cbn. apply Hfr. by left.
      + destruct (i_un0 x v H3) as (np' & Hn' & Hin). destruct (decide (id = ua_net v)) as [E|E].
        * rewrite <- E in Hn' |- *. rewrite lookup_insert. eexists. split; [reflexivity|]. cbn. apply Hfr. right. split; [done|]. congruence.
        * rewrite lookup_insert_ne by done. eauto.
    - intros id' np' [[<- <-]|[Hne Hn']]%lookup_insert_Some; cbn.
      + split; [done|]. split.
        * apply NoDup_alt. intros a b x Ha Hb. apply list_lookup_insert_Some in Ha as [(<- & <- & _)|(Ha1 & Ha)], Hb as [Hb|Hb].
          -- destruct Hb as (<- & _). done.
          -- destruct Hb as (_ & Hb). destruct (Hnew' id np Hn). by eapply elem_of_list_lookup_2.
          -- destruct Hb as (<- & <- & _). destruct (Hnew' id np Hn). by eapply elem_of_list_lookup_2.
          -- destruct Hb as (_ & Hb). eapply NoDup_lookup; eauto.
        * intros x [->|[Hx1 Hx2]]%Hfr; [exists nu; done|]. destruct (Hall x Hx2) as (v & Hv & Hv'). exists v. split; [|done]. apply M. right.
          split; [done|]. split; [|done]. intros ->. congruence.
      + destruct (i_net0 id' np' Hn') as (? & ? & Ha). split; [done|]. split; [done|]. intros x Hin. destruct (Ha x Hin) as (v & Hv & Hv'). exists v. split; [|done]. apply M. right.
        split; [intros ->; congruence|]. split; [intros ->; congruence|done].
    - intros x v [[-> ->]|(H1 & H2 & H3)]%M.
      + exists seq. cbn. split; [by destruct (ua_pkt u)|]. split; [by destruct (ua_pkt u)|]. split; [eauto|]. split; [|apply current_new].
        rewrite retx_same. by rewrite Hr0.
      + destruct (i_frag0 x v H3) as (q & Hq & ? & ? & Hr & Hc). exists q. split; [done|]. split; [done|]. split; [done|]. split; [|apply current_push; [congruence|done]].
        rewrite retx_other; [done|]. destruct (decide (id = ua_net v)) as [E|E]; [right|by left]. intros <-. apply H1. eapply (i_uniq0 x v tx u); try done. congruence.
    - intros x1 v1 x2 v2 [[-> ->]|(H1 & H2 & H3)]%M [[-> ->]|(H4 & H5 & H6)]%M; cbn; try done.
      + intros E1 E2. exfalso. apply H4. symmetry. by eapply (i_uniq0 tx u x2 v2).
      + intros E1 E2. exfalso. apply H1. by eapply (i_uniq0 x1 v1 tx u).
      + eauto.
    - intros id'. rewrite fates_neutral by (intros; discriminate). rewrite <- i_fate0. destruct (decide (id' = id)) as [->|].
      + rewrite lookup_insert, Hn. rewrite !decide_True by eauto. done.
      + rewrite lookup_insert_ne by done. done.
    - intros id' np' [[<- <-]|[Hne Hn']]%lookup_insert_Some; cbn.
      + split; [|done]. intros _. exists seq, new. left.
      + apply again_push; [congruence|eauto].
    - intros id' q t' b [(-> & _)|E]%Hlog; [done|eauto].
    - intros id' q. destruct (decide (id = id' /\ seq = q)) as [[<- <-]|Hd].
      + rewrite retx_same. lia.
      + rewrite retx_other; [apply i_max0|]. destruct (decide (id = id')); [right; tauto|by left].
    - intros id' np' q t' b Hn' [(-> & -> & _ & _)|Hx]%Hlog.
      + left. exists new, nu. split; [done|]. split; [done|]. cbn. by destruct (ua_pkt u).
      + assert (exists np0, n !! id' = Some np0) as [np0 Hn0].
        { apply lookup_insert_Some in Hn' as [[<- _]|[_ ?]]; eauto. }
        destruct (i_sent0 _ _ _ _ _ Hn0 Hx) as [(t1 & u1 & Hu1 & Hi1 & Hs1)|?]; [|right; by apply acked_push].
        left. destruct (decide (t1 = tx)) as [->|Ht].
        * assert (u1 = u) as -> by congruence. exists new, nu. split; [done|]. split; [done|]. cbn. by destruct (ua_pkt u).
        * exists t1, u1. split; [|done]. apply M. right. split; [done|]. split; [congruence|done].
    - intros id' x [E|Hx]%elem_of_cons; [done|]. pose proof (i_done0 id' x Hx) as HD.
      assert (Hne : id' <> id).
      { intros ->. pose proof (i_fate0 id) as HF. rewrite Hn in HF. rewrite !decide_True in HF by eauto.
        assert (OFate id x ∈ fates id l) by (apply fates_elem; eauto). destruct (fates id l); [by apply elem_of_nil in H|cbn in HF; lia]. }
      apply done_push; [congruence|done].
  Qed.

  (** a fragment is acknowledged; others of the packet are outstanding or not *)
  Lemma inv_ack_some m n k l tx u np fr :
    invl m n k l -> m !! tx = Some u -> n !! ua_net u = Some np -> np_frags np ≡ₚ tx :: fr ->
    invl (delete tx m) (<[ua_net u := NetPkt fr (np_pkt np) (np_interest np) (np_retx np)]> n) k (OAck tx :: l).
  Proof.
    intros I Hu Hn Hp. pose proof I as []. set (id := ua_net u) in *. assert (Eid : ua_net u = id) by done. destruct (i_net0 id np Hn) as (Hid & Hnd & Hall).
    rewrite Hp in Hnd. apply NoDup_cons in Hnd as [Hnt Hnd].
    destruct (i_frag0 tx u Hu) as (seq0 & Hs0 & _ & _ & Hr0 & Hc0). fold id in Hc0.
    apply inv_neutral with (o := OAck tx) in I as []; [|done].
    split; auto.
    - intros x v [Hne Hv]%lookup_delete_Some. destruct (i_un0 x v Hv) as (np' & Hn' & Hin). destruct (decide (id = ua_net v)) as [E|E].
      + rewrite <- E in Hn' |- *. rewrite lookup_insert. eexists. split; [reflexivity|]. cbn. assert (np' = np) as -> by congruence. rewrite Hp in Hin. by apply elem_of_cons in Hin as [|].
      + rewrite lookup_insert_ne by done. eauto.
    - intros id' np' [[<- <-]|[Hne Hn']]%lookup_insert_Some; cbn.
      + split; [done|]. split; [done|]. intros x Hx. destruct (Hall x) as (v & Hv & Hv'); [rewrite Hp; by right|]. exists v. rewrite lookup_delete_ne; [done|]. intros ->. done.
      + destruct (i_net0 id' np' Hn') as (? & ? & Ha). split; [done|]. split; [done|]. intros x Hin. destruct (Ha x Hin) as (v & Hv & Hv'). exists v. rewrite lookup_delete_ne; [done|]. intros ->. congruence.
    - intros x v [Hne Hv]%lookup_delete_Some. auto.
    - intros x1 v1 x2 v2 [_ H1]%lookup_delete_Some [_ H2]%lookup_delete_Some. eauto.
    - intros id'. rewrite <- i_fate1. destruct (decide (id' = id)) as [->|].
      + rewrite lookup_insert, Hn. rewrite !decide_True by eauto. done.
      + rewrite lookup_insert_ne by done. done.
    - intros id' np' [[<- <-]|[Hne Hn']]%lookup_insert_Some; cbn; [by rewrite (i_again1 id np Hn)|eauto].
    - intros id' np' q t' b Hn' Hx. assert (exists np0, n !! id' = Some np0) as [np0 Hn0].
      { apply lookup_insert_Some in Hn' as [[<- _]|[_ ?]]; eauto. }
      destruct (i_sent1 _ _ _ _ _ Hn0 Hx) as [(t1 & u1 & Hu1 & Hi1 & Hs1)|?]; [|by right].
      destruct (decide (t1 = tx)) as [->|Ht].
      + right. exists tx, [], l. split; [done|]. assert (u1 = u) as -> by congruence. unfold id in Hc0. assert (q = seq0) as -> by congruence. congruence.
      + left. exists t1, u1. rewrite lookup_delete_ne by done. done.
  Qed.
  Lemma inv_finish m n k l id np x :
    invl m n k l -> n !! id = Some np -> np_frags np = [] -> (exists seq tx b, OTx id seq tx b ∈ l) ->
    (x = if np_retx np then Retransmitted else Acknowledged) ->
    invl m (delete id n) k (OFate id x :: l).
  Proof.
    intros [] Hn Hf Hex Hx.
    assert (Hm : forall tx u, m !! tx = Some u -> ua_net u <> id).
    { intros tx u Hu <-. destruct (i_un0 tx u Hu) as (np' & Hn' & Hin). assert (np' = np) as -> by congruence. rewrite Hf in Hin. by apply elem_of_nil in Hin. }
    assert (T : forall i q t b, OTx i q t b ∈ OFate id x :: l <-> OTx i q t b ∈ l).
    { intros. rewrite elem_of_cons. split; [intros [?|?]; done|by right]. }
    assert (R : forall i q, retransmissions i q (OFate id x :: l) = retransmissions i q l) by (intros; apply retx_neutral; intros; discriminate).
    split; auto.
    - intros tx u Hu. rewrite lookup_delete_ne; [auto|]. intros E. by apply (Hm tx u Hu).
    - intros id' np' [_ Hn']%lookup_delete_Some. auto.
    - intros tx u Hu. destruct (i_frag0 tx u Hu) as (q & ? & ? & ? & ? & ?). exists q. rewrite R. split; [done|]. split; [done|]. split; [done|]. split; [done|]. by apply current_push.
    - intros id'. specialize (i_fate0 id'). unfold fates. cbn [List.filter is_fate]. fold (fates id' l). destruct (Nat.eqb_spec id id') as [<-|Hne].
      + rewrite lookup_delete. rewrite Hn in i_fate0. rewrite (decide_True (P := is_Some (Some np))) in i_fate0 by eauto. cbn. fold (fates id l).
        destruct (decide (is_Some None)) as [[? ?]|]; [done|]. lia.
      + rewrite lookup_delete_ne by done. done.
    - intros id' np' [_ Hn']%lookup_delete_Some. apply again_push; [done|eauto].
    - intros id' q t b. rewrite T. eauto.
    - intros id' np' q t b [_ Hn']%lookup_delete_Some Ht%T. destruct (i_sent0 _ _ _ _ _ Hn' Ht) as [?|?]; [by left|right; by apply acked_push].
    - intros id' x' [[= -> ->]|Hx']%elem_of_cons.
      + assert (A : forall seq tx b, OTx id seq tx b ∈ l -> acked id seq (OFate id x :: l)).
        { intros q t b Ht. apply acked_push. destruct (i_sent0 _ _ _ _ _ Hn Ht) as [(t1 & u1 & Hu1 & Hi1 & Hs1)|?]; [|done]. by destruct (Hm t1 u1 Hu1). }
        split; [destruct Hex as (q & t & b & ?); exists q, t, b; by apply T|].
        pose proof (again_push id (OFate id x) l _ ltac:(done) (i_again0 id np Hn)) as HA. subst x. destruct (np_retx np).
        * split; [intros q t b Ht%T; eauto|]. split; [|done]. intros _. by apply HA.
        * split; [intros q t b Ht%T; eauto|]. split; [done|]. intros H. by apply HA in H.
      + apply done_push; [done|auto].
  Qed.
  (** a network packet is given up *)
  Lemma inv_exhaust m n k l id np m' seq :
    invl m n k l -> n !! id = Some np -> (forall x, m' !! x = if decide (x ∈ np_frags np) then None else m !! x) ->
    retransmissions id seq l = max_retx -> (exists tx b, OTx id seq tx b ∈ l) ->
    invl m' (delete id n) k (OFate id Exhausted :: l).
  Proof.
    intros [] Hn Hm' Hmax Hex.
    assert (M : forall x v, m' !! x = Some v -> m !! x = Some v /\ ua_net v <> id).
    { intros x v Hv. rewrite Hm' in Hv. destruct (decide _) as [|Hx]; [done|]. split; [done|]. intros <-. destruct (i_un0 x v Hv) as (np' & Hn' & Hin). apply Hx. congruence. }
    assert (M2 : forall x v, m !! x = Some v -> ua_net v <> id -> m' !! x = Some v).
    { intros x v Hv Hne. rewrite Hm'. rewrite decide_False; [done|]. intros Hin. destruct (i_net0 id np Hn) as (_ & _ & Ha). destruct (Ha x Hin) as (u & ? & ?). congruence. }
    assert (T : forall i q t b, OTx i q t b ∈ OFate id Exhausted :: l <-> OTx i q t b ∈ l).
    { intros. rewrite elem_of_cons. split; [intros [?|?]; done|by right]. }
    assert (R : forall i q, retransmissions i q (OFate id Exhausted :: l) = retransmissions i q l) by (intros; apply retx_neutral; intros; discriminate).
    split; auto.
    - intros tx u [Hu Hne]%M. rewrite lookup_delete_ne; [auto|done].
    - intros id' np' [Hne Hn']%lookup_delete_Some. destruct (i_net0 id' np' Hn') as (? & ? & Ha). split; [done|]. split; [done|]. intros x Hin. destruct (Ha x Hin) as (v & Hv & Hv'). exists v. split; [|done].
      apply M2; [done|]. congruence.
    - intros tx u [Hu _]%M. destruct (i_frag0 tx u Hu) as (q & ? & ? & ? & ? & ?). exists q. rewrite R. split; [done|]. split; [done|]. split; [done|]. split; [done|]. by apply current_push.
    - intros x1 v1 x2 v2 [H1 _]%M [H2 _]%M. eauto.
    - intros id'. specialize (i_fate0 id'). unfold fates. cbn [List.filter is_fate]. fold (fates id' l). destruct (Nat.eqb_spec id id') as [<-|Hne].
      + rewrite lookup_delete. rewrite Hn in i_fate0. rewrite (decide_True (P := is_Some (Some np))) in i_fate0 by eauto. cbn. fold (fates id l).
        destruct (decide (is_Some None)) as [[? ?]|]; [done|]. lia.
      + rewrite lookup_delete_ne by done. done.
    - intros id' np' [_ Hn']%lookup_delete_Some. apply again_push; [done|eauto].
    - intros id' q t b. rewrite T. eauto.
    - intros id' np' q t b [Hne Hn']%lookup_delete_Some Ht%T. destruct (i_sent0 _ _ _ _ _ Hn' Ht) as [(t1 & u1 & Hu1 & Hi1 & Hs1)|?]; [|right; by apply acked_push].
      left. exists t1, u1. split; [|done]. apply M2; [done|]. congruence.
    - intros id' x' [[= -> ->]|Hx']%elem_of_cons.
      + destruct Hex as (tx & b & Hx). split; [exists seq, tx, b; by apply T|]. exists seq. rewrite R. split; [done|]. exists tx, b. by apply T.
      + apply done_push; [done|auto].
  Qed.
  (** counting Acks of greater TxSequences *)
  Lemma inv_bump m n k l m' :
    invl m n k l ->
    (forall x, match m !! x, m' !! x with
               | Some u, Some v => ua_pkt v = ua_pkt u /\ ua_timer v = ua_timer u /\ ua_retx v = ua_retx u /\ ua_net v = ua_net u
               | None, None => True | _, _ => False end) ->
    invl m' n k l.
  Proof.
    intros [] H.
    assert (M : forall x v, m' !! x = Some v -> exists u, m !! x = Some u /\ ua_pkt v = ua_pkt u /\ ua_timer v = ua_timer u /\ ua_retx v = ua_retx u /\ ua_net v = ua_net u).
    { intros x v Hv. specialize (H x). rewrite Hv in H. destruct (m !! x); [|done]. eauto. }
    assert (M2 : forall x u, m !! x = Some u -> exists v, m' !! x = Some v /\ ua_pkt v = ua_pkt u /\ ua_net v = ua_net u).
    { intros x u Hu. specialize (H x). rewrite Hu in H. destruct (m' !! x); [|done]. destruct H as (? & ? & ? & ?). eauto. }
    split; auto.
    - intros x v (u & Hu & _ & _ & _ & ->)%M. eauto.
    - intros id np Hn. destruct (i_net0 id np Hn) as (? & ? & Ha). split; [done|]. split; [done|]. intros x Hx. destruct (Ha x Hx) as (u & Hu & Hi). destruct (M2 x u Hu) as (v & ? & _ & ?). exists v. split; [done|congruence].
    - intros x v (u & Hu & -> & -> & -> & ->)%M. eauto.
    - intros x1 v1 x2 v2 (u1 & Hu1 & -> & _ & _ & ->)%M (u2 & Hu2 & -> & _ & _ & ->)%M. eauto.
    - intros id np seq tx b Hn Ht. destruct (i_sent0 _ _ _ _ _ Hn Ht) as [(t1 & u1 & Hu1 & Hi1 & Hs1)|?]; [|by right]. left. destruct (M2 t1 u1 Hu1) as (v & ? & E1 & E2). exists t1, v. rewrite E1, E2. done.
  Qed.
End inv.
