From stdpp Require Import list.
From Verif Require Import Lib Ac_Model Ac_Spec.
Open Scope list_scope.
Set Default Proof Using "Type".

Section autoconfig.
Context {U : Type}.
Implicit Types (s : ac U) (o : list (sout U)) (h : list (req U * reply U)).
Lemma busy_again (k : nat) (l : list bool) : default false (l !! k) = false -> <[k := false]> (<[k := true]> l) = l.
Proof.
  intros H. rewrite list_insert_insert. destruct (l !! k) as [b|] eqn:E; cbn in H; [subst b; by apply list_insert_id|]. apply list_insert_ge. by apply lookup_ge_None.
Qed.
Lemma start_spec o : forall k s s', (forall j, (k <= j)%nat -> is_busy j s = false) -> start_sync o k s = Some s' ->
  exists r, first_hub o r /\ s' = match r with Some u => issue (RCanonize u) s | None => complete false s end.
Proof.
  induction o as [|x o IH]; intros k s s' Hb E; cbn [start_sync] in E.
  { injection E as <-. exists None. split; [constructor|done]. }
  rewrite (Hb k) in E by done. assert (Hk : default false (a_busy s !! k) = false) by by apply (Hb k). destruct x as [u| |]; [| |done].
  - injection E as <-. exists (Some u). split; [constructor|]. unfold set_busy, issue; cbn. by rewrite busy_again.
  - destruct (start_sync o (S k) (set_busy k true s)) as [s2|] eqn:E'; [|done]. injection E as <-.
    apply IH in E' as (r & Hr & ->).
    + exists r. split; [by constructor|]. destruct r; unfold set_busy, issue, complete; cbn; by rewrite busy_again.
    + intros j Hj. unfold is_busy, set_busy; cbn. rewrite list_lookup_insert_ne by lia. apply (Hb j). lia.
Qed.
Definition isok (p : req U * reply U) : bool := match p.2 with YOk => true | _ => false end.
Definition nok h : nat := length (List.filter isok h).
Lemma nok_app h h' : nok (h ++ h') = (nok h + nok h')%nat.
Proof. unfold nok. by rewrite List.filter_app, app_length. Qed.
Lemma nok_pos h : (0 < nok h)%nat <-> some_ok h.
Proof.
  unfold some_ok. induction h as [|[r y] h IH]; [rewrite Exists_nil; cbn; lia|]. rewrite Exists_cons, <- IH.
  change (nok ((r, y) :: h)) with (length (if isok (r, y) then (r, y) :: List.filter isok h else List.filter isok h)). unfold isok at 1. cbn [snd].
  destruct y; fold (nok h); cbn [length]; fold (nok h); split; intros Hx; try (right; exact Hx); try (destruct Hx; [done|assumption]); [by left|lia].
Qed.
Definition T0 : list bool := [true; false; false; false].
Definition F0 : list bool := [false; false; false; false].
Definition found o h (u : U) : Prop := multicast h (Some u) \/ (multicast h None /\ first_hub o (Some u)).
Inductive phase o : ac U -> Prop :=
| p_data n a b : phase o (Ac T0 [RDataset] [] [] n a b)
| p_reg l h pend : l <> [] -> h.*1 ++ pend ≡ₚ map RHubReg l -> pend <> [] -> phase o (Ac T0 pend ((RDataset, YFaces l) :: h) [] (length l) (nok h) (length h - nok h))
| p_strat l h n a b : l <> [] -> registered l h -> some_ok h -> phase o (Ac T0 [RStrategy] ((RDataset, YFaces l) :: h) [] n a b)
| p_hub l h n a b : l <> [] -> registered l h -> some_ok h -> phase o (Ac T0 [RHubData] ((RDataset, YFaces l) :: h ++ [(RStrategy, YOk)]) [] n a b)
| p_canon h u n a b : found o h u -> phase o (Ac F0 [RCanonize u] h [] n a b)
| p_create h u v n a b : found o h u -> phase o (Ac F0 [RCreate v] (h ++ [(RCanonize u, YUri v)]) [] n a b)
| p_pref h u v f n a b : found o h u -> phase o (Ac F0 [RPrefix f 0] (h ++ [(RCanonize u, YUri v); (RCreate v, YFace f)]) [] n a b)
| p_pref2 h u v f n a b : found o h u -> phase o (Ac F0 [RPrefix f 1] (h ++ [(RCanonize u, YUri v); (RCreate v, YFace f); (RPrefix f 0, YOk)]) [] n a b)
| p_done h b n a c : story o h b -> phase o (Ac F0 [] h [b] n a c).
Lemma fail_phase o h n a b s' : multicast h None -> mc_fail o (Ac T0 [] h [] n a b) = Some s' -> phase o s'.
Proof.
  intros Hm E. unfold mc_fail in E. destruct (start_sync o 1 _) as [s1|] eqn:E'; [|done]. injection E as <-.
  apply start_spec in E' as (r & Hr & ->); [|intros [|[|[|[|j]]]] Hj; done || lia].
  destruct r as [u|].
  - change (set_busy 0 false _) with (Ac F0 [RCanonize u] h [] n a b). apply p_canon. right. done.
  - change (set_busy 0 false _) with (Ac F0 [] h [false] n a b). apply p_done. by apply st_nothing.
Qed.
Lemma found_story o h u h' b : found o h u -> connects u h' b -> story o (h ++ h') b.
Proof. intros [H|[H1 H2]] Hc; [by eapply st_multicast|by eapply st_other]. Qed.
Lemma issue_all (l : list N) : forall s, foldl (fun s f => issue (RHubReg f) s) s l = Ac (a_busy s) (a_pending s ++ map RHubReg l) (a_hist s) (a_done s) (a_regs s) (a_ok s) (a_bad s).
Proof.
  induction l as [|f l IH]; intros s; cbn [foldl map]; [rewrite app_nil_r; by destruct s|]. rewrite IH. cbn. by rewrite <- app_assoc.
Qed.
Lemma nok_le h : (nok h <= length h)%nat.
Proof. unfold nok. induction h as [|x h IH]; cbn; [lia|]. destruct (isok x); cbn; lia. Qed.
Lemma single_delete {A} (x : A) i r : [x] !! i = Some r -> i = 0%nat /\ r = x.
Proof. destruct i; [|done]. by intros [= <-]. Qed.
Lemma phase_step o s i y s' : phase o s -> ac_step i y o s = Some s' -> phase o s'.
Proof.
  intros H E. unfold ac_step in E. destruct (a_pending s !! i) as [r|] eqn:Ei; [|by simplify_eq].
  destruct H as [n a b|l h pend Hl Hp Hne|l h n a b Hl Hr Ho|l h n a b Hl Hr Ho|h u n a b Hf|h u v n a b Hf|h u v f n a b Hf|h u v f n a b Hf|h b n a c Hs]; cbn [a_pending a_busy a_hist a_done a_regs a_ok a_bad] in *.
  - apply single_delete in Ei as [-> ->]. cbn in E.
    destruct y as [|l|u|u|f| |]; try (eapply fail_phase; [|exact E]; by apply mc_error). destruct l as [|f l].
    { eapply fail_phase; [|exact E]. apply mc_nofaces. }
    injection E as <-. rewrite issue_all. cbn. apply (p_reg o (f :: l) [] (RHubReg f :: map RHubReg l)); try done.
  - assert (exists f, r = RHubReg f) as [f ->].
    { assert (r ∈ map RHubReg l) as Hin. { rewrite <- Hp. apply elem_of_app. right. by eapply elem_of_list_lookup_2. } apply elem_of_list_In, in_map_iff in Hin as (f & <- & _). eauto. }
    assert (Hlen : (length h + length pend = length l)%nat). { apply Permutation_length in Hp. by rewrite app_length, fmap_length, map_length in Hp. }
    assert (Hd : (length (delete i pend) = length pend - 1)%nat) by (apply lookup_lt_Some in Ei; rewrite delete_take_drop, app_length, take_length, drop_length; lia).
    assert (Hp' : (h ++ [(RHubReg f, y)]).*1 ++ delete i pend ≡ₚ map RHubReg l). { rewrite <- Hp, fmap_app, <- app_assoc. apply Permutation_app_head. cbn. symmetry. by apply delete_Permutation. }
    assert (Hok : (nok (h ++ [(RHubReg f, y)]) = nok h + (if isok (RHubReg f, y) then 1 else 0))%nat). { rewrite nok_app. f_equal. unfold nok. cbn [List.filter]. by destruct (isok _). }
    pose proof (nok_le h) as Hle. apply lookup_lt_Some in Ei.
    assert (E' : after_reg o (Ac T0 (delete i pend) (((RDataset, YFaces l) :: h) ++ [(RHubReg f, y)]) [] (length l) (nok (h ++ [(RHubReg f, y)])) (length (h ++ [(RHubReg f, y)]) - nok (h ++ [(RHubReg f, y)]))) = Some s').
    { rewrite <- E, Hok, app_length. cbn [answer length isok snd]. unfold set_regs. cbn [a_regs a_ok a_bad a_busy a_pending a_hist a_done]. destruct y; f_equal; f_equal; unfold isok; cbn [snd]; lia. }
    clear E. unfold after_reg in E'. cbn [a_regs a_ok a_bad] in E'. rewrite app_length in E'. cbn [length] in E'.
    destruct (Nat.ltb_spec (nok (h ++ [(RHubReg f, y)]) + (length h + 1 - nok (h ++ [(RHubReg f, y)]))) (length l)) as [Hlt|Hge].
    { injection E' as <-. change (((RDataset, YFaces l) :: h) ++ [(RHubReg f, y)]) with ((RDataset, YFaces l) :: (h ++ [(RHubReg f, y)])).
      replace (length h + 1)%nat with (length (h ++ [(RHubReg f, y)])) by by rewrite app_length. apply p_reg; [done|done|].
      intros Hn. rewrite Hn in Hd. cbn in Hd. assert (nok (h ++ [(RHubReg f, y)]) <= length h + 1)%nat. { pose proof (nok_le (h ++ [(RHubReg f, y)])). by rewrite app_length in *. } lia. }
    assert (nok (h ++ [(RHubReg f, y)]) <= length h + 1)%nat. { pose proof (nok_le (h ++ [(RHubReg f, y)])). by rewrite app_length in *. }
    assert (Hn : delete i pend = []). { apply nil_length_inv. lia. } rewrite Hn, app_nil_r in Hp'. rewrite Hn in E'.
    destruct (Nat.ltb_spec 0 (nok (h ++ [(RHubReg f, y)]))) as [Hpos|Hz].
    + injection E' as <-. cbn [issue a_busy a_pending a_hist a_done a_regs a_ok a_bad app]. apply p_strat; [done|done|]. by apply nok_pos.
    + eapply fail_phase; [|exact E']. apply (mc_noreg l (h ++ [(RHubReg f, y)])); [done|done|]. rewrite <- nok_pos. lia.
  - apply single_delete in Ei as [-> ->]. cbn [delete list_delete] in E. assert (y = YOk \/ y <> YOk) as [->|Hy] by (destruct y; (by left) || (by right)).
    + injection E as <-. cbn [issue a_busy a_pending a_hist a_done a_regs a_ok a_bad app]. by apply p_hub.
    + assert (mc_fail o (Ac T0 [] (((RDataset, YFaces l) :: h) ++ [(RStrategy, y)]) [] n a b) = Some s') as E' by (destruct y; done).
      eapply fail_phase; [|exact E']. by apply mc_nostrategy.
  - apply single_delete in Ei as [-> ->]. cbn [delete list_delete] in E.
    assert (EQ : forall y, ((RDataset, YFaces l) :: h ++ [(RStrategy, YOk)]) ++ [(RHubData, y)] = (RDataset, YFaces l) :: h ++ [(RStrategy, YOk); (RHubData, y)]) by (intros; cbn; by rewrite <- app_assoc).
    rewrite EQ in E. destruct y as [|l'|u|u|f| |]; cbn [answer] in E; [..|done|]; try (eapply fail_phase; [|exact E]; by apply mc_nodata).
    injection E as <-. change (phase o (Ac F0 [RCanonize u] ((RDataset, YFaces l) :: h ++ [(RStrategy, YOk); (RHubData, YHub u)]) [] n a b)). apply p_canon. left. by apply mc_hub.
  - apply single_delete in Ei as [-> ->]. cbn [delete list_delete] in E. destruct y as [|l'|w|w|f| |]; cbn [answer] in E; injection E as <-;
      try (cbn [complete a_busy a_pending a_hist a_done a_regs a_ok a_bad app]; apply p_done; eapply found_story; [exact Hf|]; by apply cn_nocanon).
    cbn [issue a_busy a_pending a_hist a_done a_regs a_ok a_bad app]. by apply p_create.
  - apply single_delete in Ei as [-> ->]. cbn [delete list_delete] in E. rewrite <- app_assoc in E. destruct y as [|l'|w|w|f| |]; cbn [answer] in E; [..|done|]; injection E as <-;
      try (cbn [complete a_busy a_pending a_hist a_done a_regs a_ok a_bad app]; apply p_done; eapply found_story; [exact Hf|]; by apply cn_nocreate).
    cbn [register_prefixes HUB_PREFIXES Nat.leb issue a_busy a_pending a_hist a_done a_regs a_ok a_bad app]. by eapply p_pref.
  - apply single_delete in Ei as [-> ->]. cbn [delete list_delete] in E. rewrite <- app_assoc in E. destruct y as [|l'|w|w|g| |]; cbn [answer] in E; injection E as <-;
      try (cbn [complete a_busy a_pending a_hist a_done a_regs a_ok a_bad app]; apply p_done; eapply found_story; [exact Hf|]; by apply cn_noprefix).
    cbn [register_prefixes HUB_PREFIXES Nat.leb issue a_busy a_pending a_hist a_done a_regs a_ok a_bad app]. by eapply p_pref2.
  - apply single_delete in Ei as [-> ->]. cbn [delete list_delete] in E. rewrite <- app_assoc in E. destruct y as [|l'|w|w|g| |]; cbn [answer] in E; injection E as <-;
      try (cbn [complete a_busy a_pending a_hist a_done a_regs a_ok a_bad app]; apply p_done; eapply found_story; [exact Hf|]; by apply cn_noprefix2).
    cbn [register_prefixes HUB_PREFIXES Nat.leb complete a_busy a_pending a_hist a_done a_regs a_ok a_bad app]. apply p_done. eapply found_story; [exact Hf|]. apply cn_ok.
  - done.
Qed.
Lemma phase_steps o l : forall s s', phase o s -> ac_steps (map (fun '(i, y) => (i, y, o)) l) s = Some s' -> phase o s'.
Proof.
  induction l as [|[i y] l IH]; intros s s' H E; cbn [map ac_steps] in E; [by simplify_eq|]. destruct (ac_step i y o s) as [s1|] eqn:E1; [|done]. eapply IH; [|exact E]. by eapply phase_step.
Qed.
Lemma phase_first o : phase o (issue RDataset (set_busy 0 true ac_init)).
Proof. apply (p_data o 0 0 0). Qed.
(** ** No exception without a reason *)
Lemma start_total o r : first_hub o r -> forall k s, (forall j, (k <= j)%nat -> is_busy j s = false) -> exists s', start_sync o k s = Some s'.
Proof.
  induction 1 as [|u o|o r H IH]; intros k s Hb; cbn [start_sync]; [eauto|rewrite (Hb k) by done; eauto|]. rewrite (Hb k) by done.
  destruct (IH (S k) (set_busy k true s)) as [s' ->]; [|eauto]. intros j Hj. unfold is_busy, set_busy; cbn. rewrite list_lookup_insert_ne by lia. apply (Hb j). lia.
Qed.
Lemma fail_total o r s : first_hub o r -> (forall j, (1 <= j)%nat -> is_busy j s = false) -> mc_fail o s <> None.
Proof. intros H Hb. unfold mc_fail. destruct (start_total o r H 1 s Hb) as [s' ->]. done. Qed.
Lemma answer_total o r q y s : first_hub o r -> (forall j, (1 <= j)%nat -> is_busy j s = false) -> (y = YThrows -> q <> RHubData /\ forall u, q <> RCreate u) -> answer o q y s <> None.
Proof.
  intros H Hb Hy. assert (HF : mc_fail o s <> None) by by eapply fail_total. assert (HA : forall n a b, after_reg o (set_regs n a b s) <> None).
  { intros n a b. unfold after_reg. cbn [a_ok a_bad a_regs set_regs]. destruct (a + b <? n)%nat; [done|]. destruct (0 <? a)%nat; [done|]. eapply fail_total; [done|]. exact Hb. }
  destruct q; destruct y; cbn [answer]; try done; try (by destruct (Hy eq_refl)); try apply HA.
  - by destruct l.
  - exfalso. destruct (Hy eq_refl) as [_ Hq]. by eapply Hq.
Qed.
(** ** Runs that overlap *)
Definition reg_req (q : req U) : bool := match q with RHubReg _ => true | _ => false end.
Definition mc_req (q : req U) : bool := match q with RDataset | RStrategy | RHubData => true | _ => false end.
Definition cnt (p : req U -> bool) (l : list (req U)) : nat := length (List.filter p l).
Local Arguments cnt : simpl never.
Lemma cnt_one p (q : req U) : cnt p [q] = if p q then 1%nat else 0%nat.
Proof. unfold cnt. cbn [List.filter]. by destruct (p q). Qed.
Lemma cnt_app p l l' : cnt p (l ++ l') = (cnt p l + cnt p l')%nat.
Proof. unfold cnt. by rewrite List.filter_app, app_length. Qed.
Lemma cnt_delete p l : forall i q, l !! i = Some q -> cnt p l = ((if p q then 1 else 0) + cnt p (delete i l))%nat.
Proof.
  unfold cnt. induction l as [|x l IH]; intros i q E; [done|]. destruct i as [|i].
  - injection E as ->. change (delete 0%nat (q :: l)) with l. cbn [List.filter]. by destruct (p q).
  - change ((x :: l) !! S i) with (l !! i) in E. change (delete (S i) (x :: l)) with (x :: delete i l). cbn [List.filter]. specialize (IH _ _ E). destruct (p x); cbn [length]; rewrite IH; lia.
Qed.
Definition orderly (s : ac U) : Prop :=
  exists b0, a_busy s = [b0; false; false; false] /\
  (b0 = false -> cnt mc_req (a_pending s) = 0%nat /\ cnt reg_req (a_pending s) = 0%nat) /\
  (b0 = true -> (cnt mc_req (a_pending s) = 1%nat /\ cnt reg_req (a_pending s) = 0%nat) \/
                (cnt mc_req (a_pending s) = 0%nat /\ (0 < cnt reg_req (a_pending s))%nat /\ (cnt reg_req (a_pending s) + a_ok s + a_bad s)%nat = a_regs s)).
Lemma busy_orderly b0 s j : a_busy s = [b0; false; false; false] -> (1 <= j)%nat -> is_busy j s = false.
Proof. intros E Hj. unfold is_busy. rewrite E. destruct j as [|[|[|[|j]]]]; done || lia. Qed.
Lemma fail_orderly o s s' b0 : a_busy s = [b0; false; false; false] -> cnt mc_req (a_pending s) = 0%nat -> cnt reg_req (a_pending s) = 0%nat -> mc_fail o s = Some s' ->
  orderly s' /\ (a_pending s' <> [] \/ (length (a_done s) < length (a_done s'))%nat).
Proof.
  intros Eb H1 H2 E. unfold mc_fail in E. destruct (start_sync o 1 s) as [s1|] eqn:E'; [|done]. injection E as <-.
  apply start_spec in E' as (r & Hr & ->); [|intros j; by eapply busy_orderly]. destruct r as [u|].
  - split; [|left; cbn; by destruct (a_pending s)]. exists false. cbn. rewrite Eb. split; [done|]. split; [|done]. intros _. rewrite !cnt_app, !cnt_one, H1, H2. done.
  - split; [|right; cbn; rewrite app_length; cbn; lia]. exists false. cbn. rewrite Eb. split; [done|]. split; [|done]. intros _. done.
Qed.
Lemma cnt_regs l : cnt mc_req (map RHubReg l) = 0%nat /\ cnt reg_req (map RHubReg l) = length l.
Proof. unfold cnt. induction l as [|f l [IH1 IH2]]; [done|]. cbn. split; [done|]. by rewrite IH2. Qed.
Lemma step_orderly o i y s s' q : orderly s -> a_pending s !! i = Some q -> ac_step i y o s = Some s' ->
  orderly s' /\ (a_pending s' <> [] \/ (length (a_done s) < length (a_done s'))%nat).
Proof.
  intros (b0 & Eb & H0 & H1) Ei E. unfold ac_step in E. rewrite Ei in E.
  pose proof (cnt_delete mc_req _ _ _ Ei) as C1. pose proof (cnt_delete reg_req _ _ _ Ei) as C2.
  set (p' := delete i (a_pending s)) in *.
  assert (ISS : forall r x (s1 : ac U), mc_req r = false -> reg_req r = false -> mc_req q = false -> reg_req q = false -> s1 = Ac (a_busy s) (p' ++ [r]) x (a_done s) (a_regs s) (a_ok s) (a_bad s) ->
    orderly s1 /\ (a_pending s1 <> [] \/ (length (a_done s) < length (a_done s1))%nat)).
  { intros r x s1 R1 R2 Q1 Q2 ->. rewrite Q1 in C1. rewrite Q2 in C2. split; [|left; cbn; by destruct p'].
    exists b0. cbn. rewrite !cnt_app, !cnt_one, R1, R2. rewrite !Nat.add_0_r. cbn [Nat.add] in C1, C2. rewrite <- C1, <- C2. done. }
  assert (CMP : forall v x (s1 : ac U), mc_req q = false -> reg_req q = false -> s1 = Ac (a_busy s) p' x (a_done s ++ [v]) (a_regs s) (a_ok s) (a_bad s) ->
    orderly s1 /\ (a_pending s1 <> [] \/ (length (a_done s) < length (a_done s1))%nat)).
  { intros v x s1 Q1 Q2 ->. rewrite Q1 in C1. rewrite Q2 in C2. split; [|right; cbn; rewrite app_length; cbn; lia]. cbn [Nat.add] in C1, C2. exists b0. cbn. rewrite <- C1, <- C2. done. }
  assert (B : reg_req q = true \/ mc_req q = true -> b0 = true). { intros Hq. destruct b0; [done|]. destruct (H0 eq_refl) as [Z1 Z2]. destruct Hq as [Hq|Hq]; rewrite Hq in *; lia. }
  destruct q as [|f| | |u|u|f k].
  - rewrite (B (or_intror eq_refl)) in *. destruct (H1 eq_refl) as [[X1 X2]|(X1 & X2 & X3)]; cbn [mc_req reg_req Nat.add] in *; [|lia].
    assert (F : forall x, mc_fail o (Ac (a_busy s) p' x (a_done s) (a_regs s) (a_ok s) (a_bad s)) = Some s' -> orderly s' /\ (a_pending s' <> [] \/ (length (a_done s) < length (a_done s'))%nat)).
    { intros x F. apply (fail_orderly o _ s' true) in F; [exact F|exact Eb|cbn [a_pending]; lia|cbn [a_pending]; lia]. }
    destruct y as [|l| | | | |]; cbn [answer] in E; try by eapply F. destruct l as [|f l]; [by eapply F|]. injection E as <-. rewrite issue_all. destruct (cnt_regs l) as [L1 L2].
    split; [|left; cbn; by destruct p']. exists true. cbn [a_busy a_pending a_regs a_ok a_bad set_regs]. split; [exact Eb|]. split; [done|]. intros _. right. match goal with |- cnt mc_req ?x = _ /\ _ => change x with ((p' ++ [RHubReg f]) ++ map RHubReg l) end. rewrite !cnt_app, !cnt_one, L1, L2. cbn. lia.
  - rewrite (B (or_introl eq_refl)) in *. destruct (H1 eq_refl) as [[X1 X2]|(X1 & X2 & X3)]; cbn [mc_req reg_req Nat.add] in *; [lia|].
    assert (A : forall x ok bad, (ok + bad = a_ok s + a_bad s + 1)%nat -> after_reg o (Ac (a_busy s) p' x (a_done s) (a_regs s) ok bad) = Some s' -> orderly s' /\ (a_pending s' <> [] \/ (length (a_done s) < length (a_done s'))%nat)).
    { intros x ok bad Hs F. unfold after_reg in F. cbn [a_ok a_bad a_regs] in F. destruct (Nat.ltb_spec (ok + bad) (a_regs s)).
      - injection F as <-. split; [|left; intros Hn; cbn [a_pending] in Hn; rewrite Hn in C2; change (cnt reg_req []) with 0%nat in C2; lia]. exists true. cbn. split; [exact Eb|]. split; [done|]. intros _. right. lia.
      - destruct (0 <? ok)%nat.
        + injection F as <-. split; [|left; cbn; by destruct p']. exists true. cbn. split; [exact Eb|]. split; [done|]. intros _. left. rewrite !cnt_app, !cnt_one. cbn. lia.
        + apply (fail_orderly o _ s' true) in F; [exact F|exact Eb|cbn [a_pending]; lia|cbn [a_pending]; lia]. }
    destruct y; cbn [answer] in E; (eapply A; cycle 1; [exact E|cbn; lia]).
  - rewrite (B (or_intror eq_refl)) in *. destruct (H1 eq_refl) as [[X1 X2]|(X1 & X2 & X3)]; cbn [mc_req reg_req Nat.add] in *; [|lia].
    assert (F : forall x, mc_fail o (Ac (a_busy s) p' x (a_done s) (a_regs s) (a_ok s) (a_bad s)) = Some s' -> orderly s' /\ (a_pending s' <> [] \/ (length (a_done s) < length (a_done s'))%nat)).
    { intros x F. apply (fail_orderly o _ s' true) in F; [exact F|exact Eb|cbn [a_pending]; lia|cbn [a_pending]; lia]. }
    destruct y; cbn [answer] in E; try by eapply F. injection E as <-. split; [|left; cbn; by destruct p']. exists true. cbn. split; [exact Eb|]. split; [done|]. intros _. left. rewrite !cnt_app, !cnt_one. cbn. lia.
  - rewrite (B (or_intror eq_refl)) in *. destruct (H1 eq_refl) as [[X1 X2]|(X1 & X2 & X3)]; cbn [mc_req reg_req Nat.add] in *; [|lia].
    assert (F : forall x, mc_fail o (Ac (a_busy s) p' x (a_done s) (a_regs s) (a_ok s) (a_bad s)) = Some s' -> orderly s' /\ (a_pending s' <> [] \/ (length (a_done s) < length (a_done s'))%nat)).
    { intros x F. apply (fail_orderly o _ s' true) in F; [exact F|exact Eb|cbn [a_pending]; lia|cbn [a_pending]; lia]. }
    destruct y; cbn [answer] in E; try discriminate E; try by eapply F. injection E as <-. split; [|left; cbn; by destruct p']. exists false. cbn. rewrite Eb. split; [done|]. split; [|done]. intros _. rewrite !cnt_app, !cnt_one. cbn. lia.
  - destruct y; cbn [answer] in E; injection E as <-; try (eapply CMP; [done|done|reflexivity]). eapply ISS; cycle 4; [reflexivity|done..].
  - destruct y; cbn [answer] in E; try discriminate E; injection E as <-; try (eapply CMP; [done|done|reflexivity]). eapply ISS; cycle 4; [reflexivity|done..].
  - destruct y; cbn [answer] in E; injection E as <-; try (eapply CMP; [done|done|reflexivity]). unfold register_prefixes. destruct (HUB_PREFIXES <=? S k)%nat; [(eapply CMP; [done|done|reflexivity])|]. eapply ISS; cycle 4; [reflexivity|done..].
Qed.
End autoconfig.
