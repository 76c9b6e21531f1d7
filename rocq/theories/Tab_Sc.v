From stdpp Require Import gmap.
From Verif Require Import Lib Name_Model Name_Proof Packet_Model Nt_Model Nt_Spec Nt_Tree Tree_Model Tree_Proof Tab_Model Tab_Spec Tab_At Tab_Fib Tab_Pit Tab_Pit2 Tab_Meas.

Definition sc_ok (T : tables) : Prop := counter_ok (sc_n T) (fun n => sc_at T n).

(** the strategy in force at [n], as a relation on the table *)
Definition governs (sc : name -> option name) (n p s : name) : Prop := longest_defined sc n p /\ sc p = Some s.

Lemma longest_defined_fun {V} (f : name -> option V) n p q : longest_defined f n p -> longest_defined f n q -> p = q.
Proof.
  intros (Hp1 & Hp2 & Hp3) (Hq1 & Hq2 & Hq3). pose proof (Hp3 _ Hq1 Hq2). pose proof (Hq3 _ Hp1 Hp2).
  apply take_prefix_iff in Hp1 as [Hp _], Hq1 as [Hq _]. rewrite Hp, Hq. f_equal. lia.
Qed.
Lemma governs_fun sc n p s p' s' : governs sc n p s -> governs sc n p' s' -> p = p' /\ s = s'.
Proof. intros [H1 H2] [H1' H2']. pose proof (longest_defined_fun _ _ _ _ H1 H1') as <-. split; [done|congruence]. Qed.

Lemma effective_ok n T p s : tree_ok T -> effective n T = Some (p, s) <-> governs (fun m => sc_at T m) n p s.
Proof.
  intros [C D]. unfold effective. destruct (t_lpm_ok nte_empty has_tables n has_sc (tr T) D) as [H1 H2].
  assert (Hd : forall q, is_Some (sc_at T q) -> exists e, tr T !! q = Some e /\ has_sc q e = true).
  { intros q [x Hx]. unfold sc_get in Hx. destruct (tr T !! q) as [e|]; [|done]. exists e. split; [done|]. unfold has_sc. by rewrite Hx. }
  destruct (t_lpm n has_sc (tr T)) as [[p' e]|] eqn:E; simpl in *.
  - specialize (H2 p' e eq_refl). destruct H1 as [(Hp & e' & He' & Hh) Hmax].
    rewrite H2 in He'. injection He' as <-. unfold has_sc in Hh. destruct (e_sc e) as [s'|] eqn:Ef; [|done].
    assert (Hs' : sc_at T p' = Some s') by (unfold sc_get; by rewrite H2).
    assert (G : governs (fun m => sc_at T m) n p' s').
    { split; [|done]. split; [done|]. split; [by rewrite Hs'|]. intros q Hq Hsq. apply Hmax. split; [done|]. by apply Hd. }
    split; [by intros [= <- <-]|]. intros G'. destruct (governs_fun _ _ _ _ _ _ G G') as [-> ->]. done.
  - split; [done|]. intros [(Hp & Hs & _) _]. exfalso. apply (H1 p). split; [done|]. by apply Hd.
Qed.
Lemma effective_total n T : tree_ok T -> is_Some (sc_at T []) -> exists p s, effective n T = Some (p, s).
Proof.
  intros Ht Hr. destruct (effective n T) as [[p s]|] eqn:E; [eauto|]. exfalso.
  unfold effective in E. destruct (t_lpm_ok nte_empty has_tables n has_sc (tr T) (tk_depth _ Ht)) as [H1 H2].
  destruct (t_lpm n has_sc (tr T)) as [[p' e]|]; simpl in *.
  - specialize (H2 p' e eq_refl). destruct H1 as [(Hp & e' & He' & Hh) _]. rewrite H2 in He'. injection He' as <-.
    unfold has_sc in Hh. by destruct (e_sc e).
  - apply (H1 []). split; [apply prefix_nil|]. destruct Hr as [x Hx]. unfold sc_get in Hx.
    destruct (tr T !! []) as [e|]; [|done]. exists e. split; [done|]. unfold has_sc. by rewrite Hx.
Qed.

(** names whose strategy is the one chosen at [p] *)
Definition covered (sc : name -> option name) (p q : name) : Prop :=
  p `prefix_of` q /\ forall r, p `prefix_of` r -> r `prefix_of` q -> r <> p -> sc r = None.

Lemma clear_empty : clear_info nte_empty = nte_empty.
Proof. done. Qed.

Lemma prefixes_comparable (a b n : name) : a `prefix_of` n -> b `prefix_of` n -> length a <= length b -> a `prefix_of` b.
Proof.
  intros [Ha La]%take_prefix_iff [Hb Lb]%take_prefix_iff L. apply take_prefix_iff. split; [|done].
  rewrite Ha at 1. rewrite Hb, take_take, Nat.min_l by lia. done.
Qed.

Lemma governs_covered sc sc' p q s : covered sc p q -> (forall r, r <> p -> sc' r = sc r) -> sc' p = Some s -> governs sc' q p s.
Proof.
  intros [Hp Hc] Heq Hs. split; [|done]. split; [done|]. split; [by rewrite Hs|]. intros r Hr Hsr.
  destruct (decide (length r <= length p)) as [|L]; [done|]. exfalso.
  assert (r <> p) by (intros ->; lia). rewrite Heq in Hsr by done. rewrite Hc in Hsr; [by destruct Hsr| |done|done].
  eapply prefixes_comparable; [exact Hp|exact Hr|lia].
Qed.
Lemma governs_uncovered sc sc' p q r s : ~ covered sc p q -> (forall x, x <> p -> sc' x = sc x) ->
  governs sc q r s -> governs sc' q r s.
Proof.
  intros Hnc Heq [(Hr & Hsr & Hmax) Hs].
  assert (Hrp : r <> p).
  { intros ->. apply Hnc. split; [done|]. intros x Hx Hxq Hne. destruct (sc x) eqn:Ex; [|done]. exfalso.
    assert (length x <= length p) by (apply Hmax; [done|by rewrite Ex]).
    apply Hne. apply (anti_symm prefix); [|done]. by eapply prefixes_comparable. }
  assert (Hlen : p `prefix_of` q -> length p < length r).
  { intros Hp. destruct (decide (length p < length r)) as [|L]; [done|]. exfalso. apply Hnc. split; [done|].
    intros x Hx Hxq Hne. destruct (sc x) eqn:Ex; [|done]. exfalso.
    assert (length x <= length r) by (apply Hmax; [done|by rewrite Ex]).
    apply Hne. apply (anti_symm prefix); [|done]. eapply prefixes_comparable; [exact Hxq|exact Hp|lia]. }
  split; [|by rewrite Heq]. split; [done|]. split; [by rewrite Heq|]. intros x Hx Hsx.
  destruct (decide (x = p)) as [->|Hne]; [specialize (Hlen Hx); lia|]. apply Hmax; [done|]. by rewrite Heq in Hsx.
Qed.
(** below the first choice under an ancestor, the ancestor governs *)
Lemma governs_parent sc p q r s : covered sc p q -> sc p = None -> governs sc q r s -> governs sc p r s.
Proof.
  intros [Hp Hc] Hn [(Hr & Hsr & Hmax) Hs]. split; [|done].
  assert (Hlen : length r <= length p).
  { destruct (decide (length r <= length p)) as [|L]; [done|]. exfalso.
    rewrite Hc in Hs; [done| |done|intros ->; lia]. eapply prefixes_comparable; [exact Hp|exact Hr|lia]. }
  split; [by eapply prefixes_comparable|]. split; [done|]. intros x Hx. apply Hmax. by transitivity p.
Qed.
Lemma governs_par sc sc' p q r s r' s' : covered sc p q -> p <> [] -> (forall x, x <> p -> sc' x = sc x) -> sc' p = None ->
  governs sc (take (length p - 1) p) r s -> governs sc' q r' s' -> r = r' /\ s = s'.
Proof.
  intros Hcov Hp Heq Hn G G'. assert (Hcov' : covered sc' p q).
  { destruct Hcov as [H1 H2]. split; [done|]. intros x Hx Hxq Hne. rewrite Heq by done. by apply H2. }
  pose proof (governs_parent _ _ _ _ _ Hcov' Hn G') as G2.
  eapply governs_fun; [|exact G2]. destruct G as [(Hr & Hsr & Hmax) Hs]. fold (par p) in Hr, Hmax.
  assert (Hrp : r <> p).
  { intros ->. apply prefix_length in Hr. rewrite par_length in Hr. destruct p; [done|]. simpl in Hr. lia. }
  split; [|by rewrite Heq]. split; [transitivity (par p); [done|apply par_prefix]|]. split; [by rewrite Heq|].
  intros x Hx Hsx. assert (x <> p) by (intros ->; rewrite Hn in Hsx; by destruct Hsx). apply Hmax; [by apply prefix_par|].
  by rewrite <- Heq.
Qed.

Section sc.
  Variable create_strategy : name -> create_result.
  Variable same_type : name -> name -> bool.

  Definition clear_where (b : name -> bool) (T T' : tables) : Prop :=
    forall k, att T' k = if b k then clear_info (att T k) else att T k.

  Lemma change_strategy_ok p s s' T : tree_ok T ->
    let T' := change_strategy same_type p s s' T in
    tree_ok T' /\ same_counters T T' /\ (forall k, present T' k <-> present T k) /\
    exists b, clear_where b T T' /\
      (same_type s s' = true -> forall q, b q = false) /\
      (same_type s s' = false -> forall q, present T q -> b q = true <-> covered (fun m => sc_at T m) p q).
  Proof.
    intros Ht. unfold change_strategy. destruct (same_type s s').
    - split; [done|]. split; [repeat split|]. split; [done|]. exists (fun _ => false). split; [intros k; done|]. done.
    - set (sel := fun (q : name) (e : nte) => if name_eqb q p then (true, true) else match e_sc e with Some _ => (false, false) | None => (true, true) end).
      set (t' := map_imap _ (tr T)).
      assert (Hl : forall k, t' !! k = match tr T !! k with Some e => Some (if t_visited p sel (tr T) k then clear_info e else e) | None => None end).
      { intros k. unfold t'. rewrite map_lookup_imap. by destruct (tr T !! k). }
      assert (Hpres : forall k, is_Some (t' !! k) <-> is_Some (tr T !! k)).
      { intros k. rewrite Hl. destruct (tr T !! k); split; intros []; eauto; done. }
      split; [|split; [apply set_tr_counters|split; [done|]]].
      { split; [eapply closed_ext; [|exact (tk_closed _ Ht)]; done|]. intros k Hk. apply Ht. by apply Hpres. }
      exists (t_visited p sel (tr T)). split; [|split; [done|]].
      + intros k. unfold att. simpl. rewrite Hl. destruct (tr T !! k); [done|]. simpl. by destruct (t_visited _ _ _ _).
      + intros _ q [e He]. rewrite (t_visited_ok has_tables) by exact (tk_closed _ Ht).
        assert (Hsel1 : forall r x, (sel r x).1 = true <-> (r <> p -> e_sc x = None)).
        { intros r x. unfold sel. destruct (name_eqb r p) eqn:E; [apply name_eqb_eq in E; subst; simpl; tauto|].
          apply name_eqb_neq in E. destruct (e_sc x); simpl; [|tauto]. split; [done|]. intros H. by specialize (H E). }
        assert (Hsel2 : forall r x, (sel r x).2 = (sel r x).1).
        { intros r x. unfold sel. destruct (name_eqb r p); [done|]. by destruct (e_sc x). }
        split.
        * intros (e' & He' & Hp & Hs & Hall). rewrite He in He'. injection He' as <-. split; [done|].
          intros r Hr Hrq Hne. unfold sc_get. destruct (tr T !! r) as [x|] eqn:Ex; [|done].
          destruct (decide (r = q)) as [->|Hrq']; [|].
          -- rewrite He in Ex. injection Ex as <-. by apply Hsel1 in Hs.
          -- specialize (Hall r x Hr Hrq Hrq' Ex). rewrite Hsel2 in Hall. by apply Hsel1 in Hall.
        * intros [Hp Hc]. exists e. split; [done|]. split; [done|]. split.
          -- apply Hsel1. intros Hne. specialize (Hc q Hp). unfold sc_get in Hc. rewrite He in Hc. by apply Hc.
          -- intros r x Hr Hrq Hne Hx. rewrite Hsel2. apply Hsel1. intros Hrp. specialize (Hc r Hr Hrq Hrp).
             unfold sc_get in Hc. by rewrite Hx in Hc.
  Qed.

  Lemma clear_sc e : e_sc (clear_info e) = e_sc e.
  Proof. done. Qed.
  Lemma clear_where_sc b T T' k : clear_where b T T' -> sc_at T' k = sc_at T k.
  Proof. intros H. rewrite !sc_at_att, H. by destruct (b k). Qed.

  Hypothesis refl : forall s, same_type s s = true.

  (** what a strategy change means at each name: the info is dropped exactly where
      the type of the governing strategy changes *)
  Definition info_rule (T T' : tables) : Prop :=
    forall q, exists b : bool, (forall s s', (exists p, governs (fun m => sc_at T m) q p s) -> (exists p, governs (fun m => sc_at T' m) q p s') -> b = same_type s s') /\
      att T' q = set_sc (sc_at T' q) (if b then att T q else clear_info (att T q)).

  Lemma set_sc_eta e : set_sc (e_sc e) e = e.
  Proof. by destruct e. Qed.

  Lemma sc_default_ok req s T : tree_ok T -> sc_ok T -> create_strategy req = Created s -> sc_at T [] = None ->
    exists T', sc_set_default create_strategy req T = Some T' /\ tree_ok T' /\ sc_ok T' /\
      (forall n, att T' n = if decide (n = []) then set_sc (Some s) (att T []) else att T n) /\
      (fib_n T' = fib_n T /\ pit_n T' = pit_n T /\ meas_n T' = meas_n T /\ now T' = now T).
  Proof.
    intros Ht Hok Hc Hn. unfold sc_set_default. rewrite Hc.
    destruct (lookup_nte_ok [] T Ht) as (T1 & -> & Ht1 & (C1 & C2 & C3 & C4 & C5) & Ha & Hp & _); [simpl; lia|].
    eexists. split; [done|]. split; [by eapply tree_ok_tr, upd_tree_ok|].
    match goal with |- sc_ok ?X /\ _ => set (T2 := X) end.
    assert (Hatt : forall n, att T2 n = if decide (n = []) then set_sc (Some s) (att T []) else att T n).
    { intros n. unfold T2. change (att (set_sc_n ?c ?X) n) with (att X n). rewrite upd_att by done. rewrite !Ha. by do 2 case_decide. }
    split; [|split; [done|done]]. unfold sc_ok. change (sc_n T2) with (inc64 (sc_n T1)). rewrite C3.
    apply (counter_add (fun k => sc_at T k) _ _ []); [rewrite Hn; by intros []| |exact Hok].
    intros k. rewrite (sc_at_att T2), Hatt, sc_at_att. destruct (decide (k = [])) as [->|]; [|tauto]. split; eauto.
  Qed.

  Lemma covered_ext sc sc' p q : (forall x, x <> p -> sc' x = sc x) -> covered sc p q -> covered sc' p q.
  Proof. intros H [? Hx]. split; [done|]. intros r ? ? ?. rewrite H by done. by apply Hx. Qed.

  Lemma finish_rule T T' p old new (b : name -> bool) : tree_ok T -> tree_ok T' ->
    (forall x, x <> p -> sc_at T' x = sc_at T x) ->
    (forall q, present T q -> b q = true <-> same_type old new = false /\ covered (fun m => sc_at T m) p q) ->
    (forall q, att T' q = set_sc (sc_at T' q) (if b q then clear_info (att T q) else att T q)) ->
    (forall q r s, covered (fun m => sc_at T m) p q -> governs (fun m => sc_at T m) q r s -> s = old) ->
    (forall q r s, covered (fun m => sc_at T m) p q -> governs (fun m => sc_at T' m) q r s -> s = new) ->
    info_rule T T'.
  Proof.
    intros Ht Ht' Heq Hb Hatt Hold Hnew q.
    destruct (tr T !! q) as [e|] eqn:Eq.
    - exists (negb (b q)). split; [|rewrite Hatt; by destruct (b q)]. intros s1 s2 [p1 G1] [p2 G2].
      specialize (Hb q (ex_intro _ e Eq)).
      assert (Hnc : ~ covered (fun m => sc_at T m) p q -> same_type s1 s2 = true).
      { intros Hnc. pose proof (governs_uncovered _ (fun m => sc_at T' m) _ _ _ _ Hnc Heq G1) as G1'.
        destruct (governs_fun _ _ _ _ _ _ G1' G2) as [_ ->]. by rewrite refl. }
      destruct (b q); simpl.
      + destruct Hb as [Hb _]. destruct (Hb eq_refl) as [Hst Hcov].
        rewrite (Hold _ _ _ Hcov G1), (Hnew _ _ _ Hcov G2). done.
      + destruct (same_type s1 s2) eqn:Est; [done|]. exfalso.
        assert (Hx : ~ ~ covered (fun m => sc_at T m) p q) by (intros H; by specialize (Hnc H)).
        apply Hx. intros Hcov. rewrite (Hold _ _ _ Hcov G1), (Hnew _ _ _ Hcov G2) in Est.
        destruct Hb as [_ Hb]. by specialize (Hb (conj Est Hcov)).
    - exists (match effective q T, effective q T' with Some (_, s1), Some (_, s2) => same_type s1 s2 | _, _ => true end). split.
      + intros s1 s2 [p1 G1] [p2 G2]. apply effective_ok in G1; [|done]. apply effective_ok in G2; [|done]. by rewrite G1, G2.
      + rewrite Hatt. assert (att T q = nte_empty) as -> by (unfold att; by rewrite Eq). rewrite clear_empty.
        generalize (match effective q T with Some (_, s1) => match effective q T' with Some (_, s2) => same_type s1 s2 | _ => true end | _ => true end). intros c. by destruct (b q), c.
  Qed.

  Lemma sc_insert_ok p req T : tree_ok T -> sc_ok T -> is_Some (sc_at T []) ->
    exists T' res, sc_insert create_strategy same_type p req T = Some (T', res) /\ tree_ok T' /\ sc_ok T' /\
      (fib_n T' = fib_n T /\ pit_n T' = pit_n T /\ meas_n T' = meas_n T /\ now T' = now T) /\
      res = (if (32 <? length p)%nat then SC_DEPTH_EXCEEDED else
             match create_strategy req with Created _ => SC_OK | NotRegistered => SC_NOT_REGISTERED | CreateException => SC_EXCEPTION end) /\
      (res <> SC_OK -> T' = T) /\
      (res = SC_OK -> exists s, create_strategy req = Created s /\
         (forall q, sc_at T' q = if decide (q = p) then Some s else sc_at T q) /\ info_rule T T').
  Proof.
    intros Ht Hok Hroot. unfold sc_insert. change MAX_DEPTH with 32.
    destruct (Nat.ltb_spec 32 (length p)) as [L|L].
    { exists T, SC_DEPTH_EXCEEDED. split; [done|]. split; [done|]. split; [done|]. split; [done|]. done. }
    destruct (create_strategy req) as [s| |] eqn:Ecr.
    2: { eexists T, _. split; [done|]. split; [done|]. split; [done|]. split; [done|]. done. }
    2: { eexists T, _. split; [done|]. split; [done|]. split; [done|]. split; [done|]. done. }
    destruct (lookup_nte_ok p T Ht L) as (T1 & -> & Ht1 & (C1 & C2 & C3 & C4 & C5) & Ha & Hp & Hkeep).
    destruct Hp as [e He]. assert (Hp : present T1 p) by by exists e. rewrite He.
    assert (He' : att T p = e) by (rewrite <- Ha; unfold att; by rewrite He).
    assert (Hsc1 : forall k, sc_at T1 k = sc_at T k) by (intros k; by rewrite !sc_at_att, Ha).
    assert (Hpsc : sc_at T p = e_sc e) by by rewrite sc_at_att, He'.
    destruct (e_sc e) as [old|] eqn:Esc.
    - destruct (name_eqb old s) eqn:Eeq.
      + apply name_eqb_eq in Eeq as ->. exists T1, SC_OK. split; [done|]. split; [done|].
        split; [unfold sc_ok; rewrite C3; eapply counter_ext; [|exact Hok]; intros x; by rewrite Hsc1|].
        split; [done|]. split; [done|]. split; [done|]. intros _. exists s. split; [done|]. split.
        * intros q. rewrite Hsc1. destruct (decide (q = p)) as [->|]; done.
        * apply (finish_rule T T1 p s s (fun _ => false)); [done|done|intros; by rewrite Hsc1| | | |].
          -- intros q _. rewrite refl. split; [done|]. by intros [? _].
          -- intros q. rewrite (sc_at_att T1), Ha. by rewrite set_sc_eta.
          -- intros q r s' Hcov G. assert (G' : governs (fun m => sc_at T m) q p s) by (eapply governs_covered; [exact Hcov|done|done]).
             by destruct (governs_fun _ _ _ _ _ _ G G').
          -- intros q r s' Hcov G. assert (G' : governs (fun m => sc_at T1 m) q p s) by (eapply governs_covered; [exact Hcov|intros; by rewrite Hsc1|by rewrite Hsc1]).
             by destruct (governs_fun _ _ _ _ _ _ G G').
      + destruct (change_strategy_ok p old s T1 Ht1) as (Ht2 & (D1 & D2 & D3 & D4 & D5) & Hpres & b & Hb & Hb1 & Hb2).
        set (T2 := change_strategy same_type p old s T1) in *. set (T3 := upd p (set_sc (Some s)) T2).
        assert (Hp2 : present T2 p) by by apply Hpres.
        assert (Hsc3 : forall q, sc_at T3 q = if decide (q = p) then Some s else sc_at T q).
        { intros q. rewrite sc_at_att. unfold T3. rewrite upd_att by done. destruct (decide (q = p)) as [->|]; [done|].
          by rewrite <- sc_at_att, (clear_where_sc b T1), Hsc1. }
        exists T3, SC_OK. split; [done|]. split; [by apply upd_tree_ok|]. split.
        { unfold sc_ok. change (sc_n T3) with (sc_n T2). rewrite D3, C3. eapply counter_ext; [|exact Hok]. intros q. cbv beta. rewrite Hsc3.
          destruct (decide (q = p)) as [->|]; [|done]. rewrite Hpsc. split; eauto. }
        split; [change (fib_n T3) with (fib_n T2); change (pit_n T3) with (pit_n T2); change (meas_n T3) with (meas_n T2); change (now T3) with (now T2); repeat split; congruence|].
        split; [done|]. split; [done|]. intros _. exists s. split; [done|]. split; [done|].
        apply (finish_rule T T3 p old s b); [done|by apply upd_tree_ok|intros x Hx; by rewrite Hsc3, decide_False| | | |].
        * intros q Hq. destruct (same_type old s) eqn:Est.
          -- rewrite Hb1 by done. split; [done|]. by intros [? _].
          -- rewrite (Hb2 eq_refl q (Hkeep q Hq)). split; [intros H; split; [done|]|intros [_ H]]; (eapply covered_ext; [|exact H]); intros; cbv beta; by rewrite Hsc1.
        * intros q. rewrite Hsc3. unfold T3. rewrite upd_att by done. destruct (decide (q = p)) as [->|].
          -- rewrite Hb, !Ha. by destruct (b p).
          -- rewrite Hb, !Ha. destruct (b q); rewrite sc_at_att; [|by rewrite set_sc_eta]. by destruct (att T q).
        * intros q r s' Hcov G. assert (G' : governs (fun m => sc_at T m) q p old) by (eapply governs_covered; [exact Hcov|done|done]).
          by destruct (governs_fun _ _ _ _ _ _ G G').
        * intros q r s' Hcov G. assert (G' : governs (fun m => sc_at T3 m) q p s).
          { eapply governs_covered; [exact Hcov| |]; [intros x Hx|]; cbv beta; rewrite Hsc3; [by rewrite decide_False|by rewrite decide_True]. }
          by destruct (governs_fun _ _ _ _ _ _ G G').
    - destruct (effective_total p T1 Ht1) as (rp & old & Heff); [by rewrite Hsc1|]. rewrite Heff.
      apply effective_ok in Heff; [|done].
      set (T2 := set_sc_n (inc64 (sc_n T1)) (upd p (set_sc (Some s)) T1)).
      assert (Ht2 : tree_ok T2) by by eapply tree_ok_tr, upd_tree_ok.
      assert (Hatt2 : forall k, att T2 k = if decide (k = p) then set_sc (Some s) (att T p) else att T k).
      { intros k. unfold T2. change (att (set_sc_n ?c ?X) k) with (att X k). rewrite upd_att by done. by rewrite !Ha. }
      assert (Hsc2 : forall q, sc_at T2 q = if decide (q = p) then Some s else sc_at T q).
      { intros q. rewrite !sc_at_att, Hatt2. by destruct (decide (q = p)). }
      destruct (change_strategy_ok p old s T2 Ht2) as (Ht3 & (D1 & D2 & D3 & D4 & D5) & Hpres & b & Hb & Hb1 & Hb2).
      set (T3 := change_strategy same_type p old s T2) in *.
      assert (Hsc3 : forall q, sc_at T3 q = if decide (q = p) then Some s else sc_at T q).
      { intros q. by rewrite (clear_where_sc b T2), Hsc2. }
      exists T3, SC_OK. split; [done|]. split; [done|]. split.
      { unfold sc_ok. rewrite D3. change (sc_n T2) with (inc64 (sc_n T1)). rewrite C3.
        apply (counter_add (fun k => sc_at T k) _ _ p); [rewrite Hpsc; by intros []| |exact Hok].
        intros k. cbv beta. rewrite Hsc3. destruct (decide (k = p)) as [->|]; [|tauto]. split; eauto. }
      split; [unfold T2 in *; simpl in *; repeat split; congruence|].
      split; [done|]. split; [done|]. intros _. exists s. split; [done|]. split; [done|].
      apply (finish_rule T T3 p old s b); [done|done|intros x Hx; by rewrite Hsc3, decide_False| | | |].
      * intros q Hq. destruct (same_type old s) eqn:Est.
        -- rewrite Hb1 by done. split; [done|]. by intros [? _].
        -- assert (Hq2 : present T2 q) by (apply upd_present; by apply Hkeep). rewrite (Hb2 eq_refl q Hq2).
           split; [intros H; split; [done|]|intros [_ H]]; (eapply covered_ext; [|exact H]); intros x Hx; cbv beta; by rewrite Hsc2, decide_False.
      * intros q. rewrite Hsc3, Hb, Hatt2. destruct (decide (q = p)) as [->|]; [by destruct (b p)|].
        rewrite sc_at_att. destruct (b q); [|by rewrite set_sc_eta]. by destruct (att T q).
      * intros q r s' Hcov G. apply governs_parent with (p := p) in G; [|done|done].
        assert (G1 : governs (fun m => sc_at T m) p rp old).
        { destruct Heff as [(E1 & E2 & E3) E4]. split; [|by rewrite <- Hsc1]. split; [done|]. split; [by rewrite <- Hsc1|].
          intros x. rewrite <- Hsc1. apply E3. }
        by destruct (governs_fun _ _ _ _ _ _ G G1).
      * intros q r s' Hcov G. assert (G' : governs (fun m => sc_at T3 m) q p s).
        { eapply governs_covered; [exact Hcov| |]; [intros x Hx|]; cbv beta; rewrite Hsc3; [by rewrite decide_False|by rewrite decide_True]. }
        by destruct (governs_fun _ _ _ _ _ _ G G').
  Qed.

  Lemma sc_erase_ok p T : tree_ok T -> sc_ok T -> is_Some (sc_at T []) -> p <> [] ->
    exists T', sc_erase same_type p T = Some T' /\ tree_ok T' /\ sc_ok T' /\
      (fib_n T' = fib_n T /\ pit_n T' = pit_n T /\ meas_n T' = meas_n T /\ now T' = now T) /\
      (forall q, sc_at T' q = if decide (q = p) then None else sc_at T q) /\ info_rule T T'.
  Proof.
    intros Ht Hok Hroot Hpne. unfold sc_erase. destruct p as [|c0 p0] eqn:Ep; [done|]. rewrite <- Ep in *. clear Ep c0 p0.
    assert (Hnone : sc_at T p = None -> exists T', Some T = Some T' /\ tree_ok T' /\ sc_ok T' /\
      (fib_n T' = fib_n T /\ pit_n T' = pit_n T /\ meas_n T' = meas_n T /\ now T' = now T) /\
      (forall q, sc_at T' q = if decide (q = p) then None else sc_at T q) /\ info_rule T T').
    { intros Hn. exists T. split; [done|]. split; [done|]. split; [done|]. split; [done|]. split.
      - intros q. by destruct (decide (q = p)) as [->|].
      - intros q. exists true. split; [|by rewrite sc_at_att, set_sc_eta]. intros s1 s2 [? G1] [? G2].
        destruct (governs_fun _ _ _ _ _ _ G1 G2) as [_ ->]. by rewrite refl. }
    destruct (tr T !! p) as [e|] eqn:He; [|apply Hnone; unfold sc_get; by rewrite He].
    destruct (e_sc e) as [old|] eqn:Esc; [|apply Hnone; unfold sc_get; by rewrite He].
    assert (Hpsc : sc_at T p = Some old) by (unfold sc_get; by rewrite He).
    assert (Hp : present T p) by by exists e.
    destruct (effective_total (take (length p - 1) p) T Ht Hroot) as (rp & new & Heff). rewrite Heff. apply effective_ok in Heff; [|done].
    destruct (change_strategy_ok p old new T Ht) as (Ht2 & (D1 & D2 & D3 & D4 & D5) & Hpres & b & Hb & Hb1 & Hb2).
    set (T1 := change_strategy same_type p old new T) in *. assert (Hp1 : present T1 p) by by apply Hpres.
    set (T2 := upd p (set_sc None) T1).
    destruct (erase_nte_ok p T2) as (Ht3 & (E1 & E2 & E3 & E4 & E5) & Ha3); [by apply upd_tree_ok|by apply upd_present|].
    set (T3 := set_sc_n (dec64 (sc_n (erase_nte p T2))) (erase_nte p T2)).
    assert (Hatt3 : forall k, att T3 k = if decide (k = p) then set_sc None (att T1 p) else att T1 k).
    { intros k. unfold T3. change (att (set_sc_n ?c ?X) k) with (att X k). rewrite Ha3. unfold T2. by rewrite upd_att. }
    assert (Hsc3 : forall q, sc_at T3 q = if decide (q = p) then None else sc_at T q).
    { intros q. rewrite sc_at_att, Hatt3. destruct (decide (q = p)); [done|]. by rewrite <- sc_at_att, (clear_where_sc b T). }
    exists T3. split; [done|]. assert (Ht3' : tree_ok T3) by by eapply tree_ok_tr, Ht3. split; [done|]. split.
    { unfold sc_ok. change (sc_n T3) with (dec64 (sc_n (erase_nte p T2))). rewrite E3. change (sc_n T2) with (sc_n T1). rewrite D3.
      apply (counter_del (fun k => sc_at T k) _ _ p); [by rewrite Hpsc| |exact Hok].
      intros k. cbv beta. rewrite Hsc3. destruct (decide (k = p)) as [->|]; [|tauto]. split; [by intros []|by intros []]. }
    split; [change (fib_n T3) with (fib_n (erase_nte p T2)); change (pit_n T3) with (pit_n (erase_nte p T2)); change (meas_n T3) with (meas_n (erase_nte p T2)); change (now T3) with (now (erase_nte p T2)); rewrite E1, E2, E4, E5; change (fib_n T2) with (fib_n T1); change (pit_n T2) with (pit_n T1); change (meas_n T2) with (meas_n T1); change (now T2) with (now T1); done|].
    split; [done|].
    apply (finish_rule T T3 p old new b); [done|done|intros x Hx; by rewrite Hsc3, decide_False| | | |].
    - intros q Hq. destruct (same_type old new) eqn:Est.
      + rewrite Hb1 by done. split; [done|]. by intros [? _].
      + rewrite (Hb2 eq_refl q Hq). split; [intros H; split; [done|done]|intros [_ H]; done].
    - intros q. rewrite Hsc3, Hatt3, Hb. destruct (decide (q = p)) as [->|]; [by destruct (b p)|].
      rewrite Hb, sc_at_att. destruct (b q); [|by rewrite set_sc_eta]. by destruct (att T q).
    - intros q r s' Hcov G. assert (G' : governs (fun m => sc_at T m) q p old) by (eapply governs_covered; [exact Hcov|done|done]).
      by destruct (governs_fun _ _ _ _ _ _ G G').
    - intros q r s' Hcov G.
      assert (Hx : rp = r /\ new = s'); [|by destruct Hx].
      apply (governs_par (fun m => sc_at T m) (fun m => sc_at T3 m) p q rp new r s'); [done|done| | |done|done].
      + intros x Hx. cbv beta. by rewrite Hsc3, decide_False.
      + cbv beta. by rewrite Hsc3, decide_True.
  Qed.
End sc.
