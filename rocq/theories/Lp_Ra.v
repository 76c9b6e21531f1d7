(** The reassembler. *)
From stdpp Require Import gmap.
From Verif Require Import Lib Lp_Model Lp_Spec.

Lemma belongs_iff ep p key sq : lp_seq p = Some sq -> (sq < SEQ)%N -> (index_of p < SEQ)%N ->
  belongs ep p key <-> key = (ep, seq_sub sq (index_of p)).
Proof.
  intros Hs Hsq Hi. unfold belongs, seq_sub. rewrite (N.mod_small (index_of p)) by done. destruct key as [e k]. simpl.
  assert (HS : (0 < SEQ)%N) by done. split.
  - intros (s & E & Hs' & <- & Hk & H). rewrite Hs in E. injection E as <-. f_equal. rewrite (N.mod_small sq) in H by done. subst sq.
    destruct (N.lt_ge_cases (k + index_of p) SEQ) as [Hl|Hl].
    + rewrite (N.mod_small (k + index_of p)) by done. replace (k + index_of p + SEQ - index_of p)%N with (k + 1 * SEQ)%N by lia.
      rewrite N.mod_add by lia. by rewrite N.mod_small.
    + assert ((k + index_of p) mod SEQ = k + index_of p - SEQ)%N as ->.
      { assert (k + index_of p = (k + index_of p - SEQ) + 1 * SEQ)%N as E by lia. rewrite E at 1. rewrite N.mod_add by lia. apply N.mod_small. lia. }
      replace (k + index_of p - SEQ + SEQ - index_of p)%N with k by lia. by rewrite N.mod_small.
  - intros [= <- ->]. exists sq. split; [done|]. split; [done|]. split; [done|]. split; [apply N.mod_lt; lia|].
    rewrite N.add_mod_idemp_l by lia. replace (sq + SEQ - index_of p + index_of p)%N with (sq + 1 * SEQ)%N by lia. rewrite N.mod_add by lia. done.
Qed.
Lemma belongs_fun ep p k1 k2 : (index_of p < SEQ)%N -> belongs ep p k1 -> belongs ep p k2 -> k1 = k2.
Proof.
  intros Hi H1 H2. pose proof H1 as (s & Hs & Hs' & _). eapply belongs_iff in H1; [|done..]. eapply belongs_iff in H2; [|done..]. congruence.
Qed.

(** a new partial packet *)
Definition blank (c : N) : partial := Partial c 0 (replicate (N.to_nat c) None) None.
Definition put_frag (j : N) (p : lp) (pp : partial) : partial :=
  Partial (pp_count pp) (pp_recv pp + 1) (<[N.to_nat j := Some p]> (pp_frags pp)) (pp_timer pp).
Definition put_timer (t : Z) (pp : partial) : partial := Partial (pp_count pp) (pp_recv pp) (pp_frags pp) (Some t).

(** the number of fragments stored *)
Fixpoint stored (l : list (option lp)) : N :=
  match l with [] => 0 | Some _ :: l' => 1 + stored l' | None :: l' => stored l' end.
Lemma stored_le l : (stored l <= N.of_nat (length l))%N.
Proof. induction l as [|[]]; simpl; lia. Qed.
Lemma stored_insert l j p : l !! j = Some None -> stored (<[j := Some p]> l) = (stored l + 1)%N.
Proof. revert j. induction l as [|x l IH]; intros [|j] H; simplify_eq/=; [lia|]. specialize (IH j H). destruct x; simpl; lia. Qed.
Lemma stored_full l : stored l = N.of_nat (length l) -> exists ps, l = map Some ps.
Proof.
  induction l as [|x l IH]; intros H; [by exists []|]. destruct x as [p|]; simpl in H.
  - destruct IH as [ps ->]; [lia|]. by exists (p :: ps).
  - pose proof (stored_le l). lia.
Qed.
Lemma stored_none n : stored (replicate n None) = 0%N.
Proof. by induction n. Qed.

Record pp_ok (key : ra_key) (pp : partial) : Prop := {
  po_count : (2 <= pp_count pp)%N;
  po_len : N.of_nat (length (pp_frags pp)) = pp_count pp;
  po_recv : pp_recv pp = stored (pp_frags pp);
  po_frag : forall j q, pp_frags pp !! j = Some (Some q) ->
    index_of q = N.of_nat j /\ count_of q = pp_count pp /\ (index_of q < SEQ)%N /\ belongs (fst key) q key /\ exists x, lp_frag q = Some x;
}.
Lemma blank_ok key c : (2 <= c)%N -> pp_ok key (blank c).
Proof.
  intros Hc. split; simpl; [done|rewrite replicate_length; lia|by rewrite stored_none|]. intros j q [H _]%lookup_replicate. done.
Qed.
Lemma put_frag_ok key pp p j : pp_ok key pp -> pp_frags pp !! N.to_nat j = Some None ->
  index_of p = j -> (j < SEQ)%N -> count_of p = pp_count pp -> belongs (fst key) p key -> (exists x, lp_frag p = Some x) -> pp_ok key (put_frag j p pp).
Proof.
  intros [] Hn Hi Hj Hc Hb Hf. split; simpl; [done|by rewrite insert_length|rewrite stored_insert by done; lia|].
  intros i q [(<- & [= <-] & _)|(? & H)]%list_lookup_insert_Some; [|by apply po_frag0]. split; [lia|]. split; [done|]. split; [lia|done].
Qed.

Lemma join_full ps : (forall q, q ∈ ps -> exists x, lp_frag q = Some x) ->
  exists pieces, map lp_frag ps = map Some pieces /\ join (map Some ps) = Some (concat pieces).
Proof.
  induction ps as [|p ps IH]; intros H; [by exists []|]. destruct IH as (l & H1 & H2); [intros; apply H; by right|].
  destruct (H p) as [x Hx]; [by left|]. exists (x :: l). simpl. by rewrite Hx, H1, H2.
Qed.

Section ra.
  Variable block : list N -> option (list N).

  Inductive recv (ep : N) (p : lp) (s : ra) : ra -> ra_out -> Prop :=
  | rc_bad : (count_of p <= index_of p)%N \/ (ra_max s < count_of p)%N \/ ~ is_whole p /\ lp_seq p = None -> recv ep p s s RNone
  | rc_whole net : is_whole p -> (1 <= ra_max s)%N -> lp_frag p = Some net -> recv ep p s s (match block net with Some b => RPacket b p | None => RError end)
  | rc_drop key pp : (index_of p < count_of p <= ra_max s)%N -> ~ is_whole p -> belongs ep p key -> ra_parts s !! key = Some pp ->
      pp_count pp <> count_of p \/ (exists q, pp_frags pp !! N.to_nat (index_of p) = Some (Some q)) -> recv ep p s s RNone
  | rc_keep key pp o : (index_of p < count_of p <= ra_max s)%N -> ~ is_whole p -> belongs ep p key -> fst key = ep ->
      ra_parts s !! key = Some pp \/ ra_parts s !! key = None /\ pp = blank (count_of p) ->
      pp_count pp = count_of p -> pp_frags pp !! N.to_nat (index_of p) = Some None -> pp_ok key pp ->
      o = put_frag (index_of p) p pp -> pp_ok key o -> (stored (pp_frags o) <> count_of p) ->
      recv ep p s (set_parts (<[key := put_timer (ra_now s + ra_timeout s) o]> (ra_parts s)) s) RNone
  | rc_done key pp ps pieces first s' o : (index_of p < count_of p <= ra_max s)%N -> ~ is_whole p -> belongs ep p key -> fst key = ep ->
      ra_parts s !! key = Some pp \/ ra_parts s !! key = None /\ pp = blank (count_of p) ->
      pp_count pp = count_of p -> pp_frags pp !! N.to_nat (index_of p) = Some None -> pp_ok key pp ->
      pp_ok key (put_frag (index_of p) p pp) -> pp_frags (put_frag (index_of p) p pp) = map Some ps -> ps !! 0%nat = Some first -> map lp_frag ps = map Some pieces ->
      match block (concat pieces) with
      | Some b => s' = set_parts (delete key (ra_parts s)) s /\ o = RPacket b first
      | None => s' = set_parts (<[key := put_frag (index_of p) p pp]> (ra_parts s)) s /\ o = RError
      end ->
      recv ep p s s' o.

  Definition ra_inv (s : ra) : Prop := forall key pp, ra_parts s !! key = Some pp -> pp_ok key pp /\ pp_timer pp <> None.

  Lemma receive_cases ep p s s' o : ra_inv s -> ra_ok s (RaRecv ep p) ->
    receive_fragment block ep p s = Some (s', o) -> recv ep p s s' o.
  Proof.
    intros I [Hs64 Hi64]. unfold receive_fragment. destruct (lp_frag p) as [net|] eqn:Hf; [|done].
    fold (index_of p). change (match lp_cnt p with Some c => c | None => 1%N end) with (count_of p).
    change (match lp_idx p with Some i => i | None => 0%N end) with (index_of p).
    assert (Hi : (index_of p < SEQ)%N). { unfold index_of. destruct (lp_idx p); [by apply Hi64|done]. }
    destruct (N.leb_spec (count_of p) (index_of p)) as [Hle|Hlt]; [intros [= <- <-]; apply rc_bad; by left|].
    destruct (N.ltb_spec (ra_max s) (count_of p)) as [Hm|Hm]; [intros [= <- <-]; apply rc_bad; right; by left|].
    destruct (N.eqb_spec (index_of p) 0) as [E0|E0]; simpl; [destruct (N.eqb_spec (count_of p) 1) as [E1|E1]|];
      [intros [= <- <-]; by apply rc_whole; [|lia|]| |].
    all: assert (Hw : ~ is_whole p) by (intros []; lia).
    all: assert (H2 : (2 <= count_of p)%N) by lia.
    all: destruct (lp_seq p) as [sq|] eqn:Hsq; [|intros [= <- <-]; apply rc_bad; right; right; by split].
    all: specialize (Hs64 sq eq_refl).
    all: assert (Hb : belongs ep p (ep, seq_sub sq (index_of p))) by (by eapply belongs_iff).
    all: set (key := (ep, seq_sub sq (index_of p))) in *.
    all: fold (blank (count_of p)).
    all: set (pp := match ra_parts s !! key with Some pp => pp | None => blank (count_of p) end).
    all: assert (Hpp : ra_parts s !! key = Some pp \/ ra_parts s !! key = None /\ pp = blank (count_of p)) by (unfold pp; destruct (ra_parts s !! key); auto).
    all: assert (Hok : pp_ok key pp) by (destruct Hpp as [Hp|[_ ->]]; [by apply I|by apply blank_ok]).
    all: clearbody pp.
    all: destruct (N.eqb_spec (count_of p) (pp_count pp)) as [Ec|Ec]; simpl; [|intros [= <- <-]; destruct Hpp as [Hp|[_ ->]]; [|done]; eapply rc_drop; eauto].
    all: destruct (pp_frags pp !! N.to_nat (index_of p)) as [[q|]|] eqn:Hq;
      [intros [= <- <-]; destruct Hpp as [Hp|[_ ->]]; [eapply rc_drop; eauto|by apply lookup_replicate in Hq as [? _]]| |done].
    all: pose proof (put_frag_ok key pp p (index_of p) Hok Hq eq_refl Hi Ec Hb ltac:(eauto)) as Hok'.
    all: fold (put_frag (index_of p) p pp).
    all: change (pp_recv pp + 1)%N with (pp_recv (put_frag (index_of p) p pp)).
    all: change (Partial (pp_count pp) (pp_recv (put_frag (index_of p) p pp)) (<[N.to_nat (index_of p):=Some p]> (pp_frags pp)) (pp_timer pp)) with (put_frag (index_of p) p pp).
    all: change (Partial (pp_count pp) (pp_recv (put_frag (index_of p) p pp)) (<[N.to_nat (index_of p):=Some p]> (pp_frags pp)) (Some (ra_now s + ra_timeout s)%Z))
      with (put_timer (ra_now s + ra_timeout s) (put_frag (index_of p) p pp)).
    all: rewrite (po_recv _ _ Hok'); change (<[N.to_nat (index_of p):=Some p]> (pp_frags pp)) with (pp_frags (put_frag (index_of p) p pp)).
    all: destruct (N.eqb_spec (stored (pp_frags (put_frag (index_of p) p pp))) (pp_count pp)) as [Es|Es];
      [|intros [= <- <-]; eapply rc_keep; eauto; congruence].
    all: pose proof (po_len _ _ Hok') as Hlen; change (pp_count (put_frag (index_of p) p pp)) with (pp_count pp) in Hlen.
    all: destruct (stored_full (pp_frags (put_frag (index_of p) p pp))) as [ps Eps]; [congruence|].
    all: destruct (join_full ps) as (pieces & Hpc & Hj);
      [intros q0 [i Hq0]%elem_of_list_lookup; eapply (po_frag _ _ Hok' i); rewrite Eps; by rewrite (list_lookup_fmap Some), Hq0|].
    all: rewrite Eps, Hj; destruct ps as [|first ps]; [rewrite Eps in Hlen; simpl in Hlen; lia|]; cbn [map].
    all: destruct (block (concat pieces)) as [b|] eqn:Eb; intros [= <- <-].
    all: eapply (rc_done ep p s key pp (first :: ps) pieces first); eauto; rewrite Eb; done.
  Qed.

  Lemma receive_defined ep p s : ra_inv s -> ra_ok s (RaRecv ep p) -> lp_frag p <> None -> receive_fragment block ep p s <> None.
  Proof.
    intros I [Hs64 Hi64] Hne. unfold receive_fragment. destruct (lp_frag p) as [net|] eqn:Hf; [|done].
    change (match lp_cnt p with Some c => c | None => 1%N end) with (count_of p).
    change (match lp_idx p with Some i => i | None => 0%N end) with (index_of p).
    assert (Hi : (index_of p < SEQ)%N). { unfold index_of. destruct (lp_idx p); [by apply Hi64|done]. }
    destruct (N.leb_spec (count_of p) (index_of p)) as [Hle|Hlt]; [done|]. destruct (ra_max s <? count_of p)%N; [done|].
    destruct ((index_of p =? 0)%N && (count_of p =? 1)%N) eqn:Ew; [done|]. destruct (lp_seq p) as [sq|] eqn:Hsq; [|done]. specialize (Hs64 sq eq_refl).
    assert (Hb : belongs ep p (ep, seq_sub sq (index_of p))) by (by eapply belongs_iff). set (key := (ep, seq_sub sq (index_of p))) in *.
    fold (blank (count_of p)). set (pp := match ra_parts s !! key with Some pp => pp | None => blank (count_of p) end).
    assert (Hok : pp_ok key pp). { unfold pp. destruct (ra_parts s !! key) eqn:E; [by apply I|apply blank_ok]. destruct (N.eqb_spec (index_of p) 0), (N.eqb_spec (count_of p) 1); simpl in Ew; try done; lia. }
    clearbody pp. destruct (N.eqb_spec (count_of p) (pp_count pp)) as [Ec|Ec]; simpl; [|done].
    destruct (pp_frags pp !! N.to_nat (index_of p)) as [[q|]|] eqn:Hq; [done| |].
    - pose proof (put_frag_ok key pp p (index_of p) Hok Hq eq_refl Hi Ec Hb ltac:(eauto)) as Hok'.
      pose proof (po_recv _ _ Hok') as HR. pose proof (po_len _ _ Hok') as HL. simpl in HR, HL.
      destruct (N.eqb_spec (pp_recv pp + 1) (pp_count pp)) as [Es|Es]; [|done].
      destruct (stored_full (<[N.to_nat (index_of p):=Some p]> (pp_frags pp))) as [ps Eps]; [congruence|].
      destruct (join_full ps) as (pieces & Hpc & Hj); [intros q0 [i Hq0]%elem_of_list_lookup; eapply (po_frag _ _ Hok' i); simpl; rewrite Eps; by rewrite (list_lookup_fmap Some), Hq0|].
      rewrite Eps, Hj. destruct ps as [|first ps]; [|simpl; by destruct (block _)]. pose proof (po_count _ _ Hok). rewrite Eps in HL. simpl in HL. lia.
    - apply lookup_ge_None in Hq. pose proof (po_len _ _ Hok). lia.
  Qed.

  Lemma step_inv s e s' o : ra_inv s -> ra_ok s e -> ra_step block s e = Some (s', o) -> ra_inv s'.
  Proof.
    intros I Hok H. destruct e as [ep p|key|m t|d]; simpl in H.
    - apply receive_cases in H as [| | |key pp q Hc Hw Hb Hk Hp Ec Hq Ho -> Hn Hst|key pp ps pieces first s1 o1 Hc Hw Hb Hk Hp Ec Hq Ho Hn Eps Hf Hpc Hx]; [done..| | |done|done].
      + intros key' pp'. simpl. intros [(<- & <-)|(? & H)]%lookup_insert_Some; [|by apply I]. split; [|done]. by destruct Hn.
      + destruct (block (concat pieces)); destruct Hx as [-> ->]; intros key' pp'; simpl.
        * intros [? H]%lookup_delete_Some. by apply I.
        * intros [(<- & <-)|(? & H)]%lookup_insert_Some; [|by apply I]. split; [done|]. simpl. destruct Hp as [Hp|[_ ->]]; [by apply I in Hp as [_ ?]|].
          exfalso. pose proof (po_recv _ _ Hn) as HR. pose proof (po_len _ _ Hn) as HL. pose proof (po_count _ _ Hn) as HC. rewrite Eps in HR, HL. simpl in HR, HL, HC.
          assert (stored (map Some ps) = N.of_nat (length ps)) as E by (clear; induction ps; simpl; lia). rewrite fmap_length in HL. lia.
    - injection H as <- <-. intros key' pp' H. simpl in H. apply lookup_delete_Some in H as [? H]. by apply I.
    - injection H as <- <-. exact I.
    - injection H as <- <-. exact I.
  Qed.

  Lemma hist_inv m t z h s : ra_hist block (ra_new m t z) h s -> ra_inv s.
  Proof.
    induction 1 as [|h s e s' o H IH Hok Hst]; [by intros key pp H|]. by eapply step_inv.
  Qed.

  Lemma since_snoc key h q x : since key h q -> fst x <> RaTimer key -> ~ delivers key x -> since key (h ++ [x]) q.
  Proof.
    intros (h1 & h2 & -> & (o & Ho) & Hx) H1 H2. exists h1, (h2 ++ [x]). split; [by rewrite app_assoc|]. split; [exists o; set_solver|].
    intros y [Hy| ->%elem_of_list_singleton]%elem_of_app; [by apply Hx|done].
  Qed.
  Lemma since_now key h q o : (forall b f, o <> RPacket b f) -> since key (h ++ [(RaRecv (fst key) q, o)]) q.
  Proof.
    intros Hn. exists h, [(RaRecv (fst key) q, o)]. split; [done|]. split; [exists o; by left|]. intros x ->%elem_of_list_singleton. split; [done|].
    intros (ep & p & b & f & [= <- -> ->] & _). by eapply Hn.
  Qed.

  Lemma hist_since m t z h s : ra_hist block (ra_new m t z) h s ->
    forall key pp j q, ra_parts s !! key = Some pp -> pp_frags pp !! j = Some (Some q) -> since key h q.
  Proof.
    induction 1 as [|h s e s' o H IH Hok Hst]; [intros key pp j q Hp _; done|].
    pose proof (hist_inv _ _ _ _ _ H) as I. intros key pp j q Hp Hq. destruct e as [ep p|k|mx t'|d]; simpl in Hst.
    - assert (Hidx : (index_of p < SEQ)%N) by (unfold index_of; destruct Hok as [_ Hi]; destruct (lp_idx p); [by apply Hi|done]).
      assert (Hold : forall o, ra_parts s !! key = Some pp -> o = RNone \/ o = RError \/ is_whole p -> since key (h ++ [(RaRecv ep p, o)]) q).
      { clear o Hst. intros o Hs Ho. apply since_snoc; [by eapply IH|done|]. intros (ep' & p' & b & f & [= <- <- ->] & Hw & _). by destruct Ho as [?|[?|?]]. }
      revert Hp. apply receive_cases in Hst; [|done|done]. destruct Hst as [| | |k p0 q0 Hc Hw Hb Hk Hpp Ec Hn Ho -> Hok' Hst|k p0 ps pieces first s1 o1 Hc Hw Hb Hk Hpp Ec Hn Ho Hok' Eps Hf Hpc Hx];
        intros Hp; [by apply Hold; auto|by apply Hold; auto|by apply Hold; auto| |].
      + simpl in Hp. apply lookup_insert_Some in Hp as [(<- & <-)|(Hne & Hp)]; [|apply Hold; auto]. simpl in Hq.
        apply list_lookup_insert_Some in Hq as [(<- & [= <-] & _)|(? & Hq)]; [rewrite <- Hk; by apply since_now|].
        destruct Hpp as [Hpp|[_ ->]]; [|by apply lookup_replicate in Hq as [? _]]. apply since_snoc; [by eapply IH|done|]. by intros (? & ? & ? & ? & [= ] & _).
      + destruct (block (concat pieces)) as [b|]; destruct Hx as [-> ->]; simpl in Hp.
        * apply lookup_delete_Some in Hp as [Hne Hp]. apply since_snoc; [by eapply IH|done|]. intros (ep' & p' & b' & f & [= <- <- <- <-] & _ & Hb').
          apply Hne. by eapply belongs_fun.
        * apply lookup_insert_Some in Hp as [(<- & <-)|(Hne & Hp)]; [|apply Hold; auto]. simpl in Hq.
          apply list_lookup_insert_Some in Hq as [(<- & [= <-] & _)|(? & Hq)]; [rewrite <- Hk; by apply since_now|].
          destruct Hpp as [Hpp|[_ ->]]; [|by apply lookup_replicate in Hq as [? _]]. apply since_snoc; [by eapply IH|done|]. by intros (? & ? & ? & ? & [= ] & _).
    - injection Hst as <- <-. simpl in Hp. apply lookup_delete_Some in Hp as [Hne Hp]. apply since_snoc; [by eapply IH|simpl; congruence|]. by intros (? & ? & ? & ? & [= ] & _).
    - injection Hst as <- <-. apply since_snoc; [by eapply IH|done|]. by intros (? & ? & ? & ? & [= ] & _).
    - injection Hst as <- <-. apply since_snoc; [by eapply IH|done|]. by intros (? & ? & ? & ? & [= ] & _).
  Qed.
End ra.
