(** C83: instances of NFD share the path of the Unix socket. *)
From stdpp Require Import gmap fin_sets.
From Verif Require Import Lib Un_Model.
Open Scope list_scope.

(** * What a start does *)
(** The outcomes of a start that nothing interferes with. *)
Inductive outcome (perm : bool) (p : N) (w w' : world) : Prop :=
| oc_serves : (w_path w = NNothing \/ exists s, w_path w = NSocket s /\ w_socks w !! s <> Some Listening) -> perm = true ->
    proc p w' = PServing (w_next w) -> w_path w' = NSocket (w_next w) -> w_socks w' = <[w_next w := Listening]> (w_socks w) -> outcome perm p w w'
| oc_fails : (perm = false \/ (exists c, w_path w = NFile c) \/ exists s, w_path w = NSocket s /\ w_socks w !! s = Some Listening) ->
    proc p w' = PFailed -> w_path w' = w_path w -> w_socks w' = w_socks w -> outcome perm p w w'.
Lemma proc_set p q x w : proc p (set_proc q x w) = if decide (p = q) then x else proc p w.
Proof. unfold proc, set_proc. cbn. case_decide; [subst; by rewrite lookup_insert|by rewrite lookup_insert_ne]. Qed.
Lemma proc_this p x w : proc p (set_proc p x w) = x.
Proof. rewrite proc_set. by rewrite decide_True. Qed.
Lemma s_idle perm p w : proc p w = PIdle -> un_step perm p w = set_proc p (match w_path w with NNothing => PBind | NFile _ => PFailed | NSocket _ => PConnect end) w.
Proof. unfold un_step. intros ->. by destruct (w_path w). Qed.
Lemma s_connect perm p w s : proc p w = PConnect -> w_path w = NSocket s ->
  un_step perm p w = set_proc p (if perm then match w_socks w !! s with Some Listening => PFailed | _ => PRemove end else PBind) w.
Proof. unfold un_step. intros -> ->. destruct perm; [|done]. by destruct (w_socks w !! s) as [[]|]. Qed.
Lemma s_remove p w : proc p w = PRemove -> un_step true p w = set_proc p PBind (set_path NNothing w).
Proof. unfold un_step. by intros ->. Qed.
Lemma s_bind p w : proc p w = PBind -> w_path w = NNothing -> un_step true p w = set_proc p (PListen (w_next w)) (World (NSocket (w_next w)) (<[w_next w := Bound]> (w_socks w)) (w_next w + 1)%N (w_procs w)).
Proof. unfold un_step. by intros -> ->. Qed.
Lemma s_bind_fails perm p w : proc p w = PBind -> perm = false \/ w_path w <> NNothing -> un_step perm p w = set_proc p PFailed w.
Proof. unfold un_step. intros ->. destruct (w_path w), perm; try done. by intros [?|?]. Qed.
Lemma s_listen perm p w s : proc p w = PListen s -> un_step perm p w = set_proc p (PServing s) (set_sock s (Some Listening) w).
Proof. unfold un_step. by intros ->. Qed.
Lemma s_failed perm p w : proc p w = PFailed -> un_step perm p w = w.
Proof. unfold un_step. by intros ->. Qed.
Lemma s_serving perm p w s : proc p w = PServing s -> un_step perm p w = w.
Proof. unfold un_step. by intros ->. Qed.
(** A system call that is not permitted changes neither the path nor the sockets, in any state, and a removal or bind that is refused ends the start. *)
Theorem C83_denied p w : (forall s, proc p w <> PListen s) ->
  w_path (un_step false p w) = w_path w /\ w_socks (un_step false p w) = w_socks w /\ (forall q, q <> p -> proc q (un_step false p w) = proc q w) /\
  (proc p w = PRemove \/ proc p w = PBind -> proc p (un_step false p w) = PFailed).
Proof.
  intros H. assert (Q : forall x q, q <> p -> proc q (set_proc p x w) = proc q w). { intros x q Hq. rewrite proc_set. by rewrite decide_False. }
  unfold un_step. destruct (proc p w) as [| | | |s|s|] eqn:E; try (by destruct (H s)); destruct (w_path w) eqn:Ew; cbn [w_path w_socks set_proc]; rewrite ?Ew; (split; [done|]); (split; [done|]); (split; [by auto|]); intros [X|X]; try done; apply proc_this.
Qed.
Print Assumptions C83_denied.
Example C83_denied_ex : un_step false 1 (World (NSocket 0) ∅ 1 {[1%N := PRemove]}) = set_proc 1 PFailed (World (NSocket 0) ∅ 1 {[1%N := PRemove]}).
Proof. reflexivity. Qed.
Local Opaque un_step.
Ltac tp := first [done | apply proc_this].
Lemma us n perm p w : un_steps (S n) perm p w = un_steps n perm p (un_step perm p w).
Proof. done. Qed.
Lemma us_failed n perm p w : proc p w = PFailed -> un_steps n perm p w = w.
Proof. intros H. induction n; [done|]. by rewrite us, s_failed. Qed.
Lemma us_serving n perm p w s : proc p w = PServing s -> un_steps n perm p w = w.
Proof. intros H. induction n; [done|]. by rewrite us, (s_serving _ _ _ s). Qed.
Lemma us_remove n p w : proc p w = PRemove -> un_steps (S n) true p w = un_steps n true p (set_proc p PBind (set_path NNothing w)).
Proof. intros H. by rewrite us, (s_remove p w). Qed.
Lemma us_bind n p w : proc p w = PBind -> w_path w = NNothing -> un_steps (S n) true p w = un_steps n true p (set_proc p (PListen (w_next w)) (World (NSocket (w_next w)) (<[w_next w := Bound]> (w_socks w)) (w_next w + 1)%N (w_procs w))).
Proof. intros H E. by rewrite us, (s_bind p w). Qed.
Lemma us_listen n perm p w s : proc p w = PListen s -> un_steps (S n) perm p w = un_steps n perm p (set_proc p (PServing s) (set_sock s (Some Listening) w)).
Proof. intros H. by rewrite us, (s_listen perm p w s). Qed.
Local Opaque un_steps.
Ltac failed := rewrite us_failed by tp.
(** A start replaces a socket that nobody listens on, uses a free path, and otherwise fails and changes nothing; other instances are not touched. *)
Theorem C83_start perm p w : proc p w = PIdle ->
  outcome perm p w (un_start perm p w) /\ forall q, q <> p -> proc q (un_start perm p w) = proc q w.
Proof.
  intros Hp. unfold un_start. rewrite us, s_idle by done. destruct (w_path w) as [|c|s] eqn:Ew.
  - destruct perm.
    + rewrite us_bind by tp. rewrite (us_listen _ _ _ _ (w_next w)) by tp. rewrite (us_serving _ _ _ _ (w_next w)) by tp. split.
      * apply oc_serves; [by left|done|tp|done|]. exact (insert_insert _ _ _ _).
      * intros q Hq. unfold proc; cbn. by rewrite !lookup_insert_ne.
    + rewrite us, s_bind_fails by (first [tp|by left]). failed. split; [apply oc_fails; [by left|tp|done|done]|]. intros q Hq. unfold proc; cbn. by rewrite !lookup_insert_ne.
  - failed. split; [apply oc_fails; [right; left; eauto|tp|done|done]|]. intros q Hq. unfold proc; cbn. by rewrite !lookup_insert_ne.
  - rewrite us, (s_connect _ _ _ s) by tp. cbn [w_socks set_proc]. destruct perm.
    + assert (Hd : w_socks w !! s = Some Listening \/ w_socks w !! s <> Some Listening) by (destruct (w_socks w !! s) as [[]|]; [by right|by left|by right]). destruct Hd as [El|Nl].
      * rewrite El. failed. split; [apply oc_fails; [right; right; eauto|tp|done|done]|]. intros q Hq. unfold proc; cbn. by rewrite !lookup_insert_ne.
      * assert (Em : match w_socks w !! s with Some Listening => PFailed | _ => PRemove end = PRemove) by (destruct (w_socks w !! s) as [[]|]; done). rewrite Em.
        rewrite us_remove by tp. rewrite us_bind by tp. rewrite (us_listen _ _ _ _ (w_next w)) by tp. rewrite (us_serving _ _ _ _ (w_next w)) by tp. split.
        -- apply oc_serves; [right; eauto|done|tp|done|]. exact (insert_insert _ _ _ _).
        -- intros q Hq. unfold proc; cbn. by rewrite !lookup_insert_ne.
    + rewrite us, s_bind_fails by (first [tp|by left]). failed. split; [apply oc_fails; [by left|tp|done|done]|]. intros q Hq. unfold proc; cbn. by rewrite !lookup_insert_ne.
Qed.
Print Assumptions C83_start.
Local Transparent un_steps.

(** * Histories *)
(** Instances are started one after the other, end and crash; nobody else touches the path. *)
Definition quiet (e : un_event) : Prop := match e with UStart _ _ | UExit _ | UCrash _ => True | _ => False end.
Record inv (w : world) : Prop := Inv {
  inv_phase p : proc p w = PIdle \/ proc p w = PFailed \/ exists s, proc p w = PServing s /\ w_path w = NSocket s /\ w_socks w !! s = Some Listening;
  inv_sock s x : w_socks w !! s = Some x -> exists p, proc p w = PServing s;
  inv_one p q s : proc p w = PServing s -> proc q w = PServing s -> p = q }.
Lemma inv_only w p s : inv w -> proc p w = PServing s -> w_path w = NSocket s /\ w_socks w !! s = Some Listening /\ (forall q, q <> p -> proc q w = PIdle \/ proc q w = PFailed) /\ forall t, t <> s -> w_socks w !! t = None.
Proof.
  intros I Hp. destruct (inv_phase w I p) as [E|[E|(s' & E & Hw & Hl)]]; try congruence. assert (s' = s) as -> by congruence.
  assert (O : forall q, q <> p -> proc q w = PIdle \/ proc q w = PFailed). { intros q Hq. destruct (inv_phase w I q) as [E'|[E'|(t & E' & Hw' & _)]]; [by left|by right|]. exfalso. apply Hq. apply (inv_one w I q p s); [congruence|done]. }
  split; [done|]. split; [done|]. split; [done|]. intros t Ht. destruct (w_socks w !! t) as [x|] eqn:Et; [|done]. destruct (inv_sock w I t x Et) as [q Eq]. exfalso.
  destruct (decide (q = p)) as [->|Hq]; [congruence|]. destruct (O q Hq); congruence.
Qed.
Lemma inv_none w : (forall p, proc p w = PIdle \/ proc p w = PFailed) -> w_socks w = ∅ -> inv w.
Proof. intros H E. split; [intros p; destruct (H p); eauto|intros s x; rewrite E, lookup_empty; done|]. intros p q s Hp. destruct (H p); congruence. Qed.
Lemma inv_run e w : quiet e -> inv w -> inv (un_run e w).
Proof.
  intros Q I. destruct e as [|perm p|p|p|]; try done; cbn [un_run].
  - destruct (inv_phase w I p) as [Hp|[Hp|(s & Hp & _)]].
    + destruct (C83_start perm p w Hp) as [O Hq]. destruct O as [Hc _ E1 E2 E3|Hc E1 E2 E3].
      * assert (N : forall q s, proc q w <> PServing s). { intros q s E. destruct (inv_only w q s I E) as (Ep & El & _). destruct Hc as [?|(t & ? & ?)]; congruence. }
        split.
        -- intros q. destruct (decide (q = p)) as [->|Hne]; [right; right; exists (w_next w); split; [done|]; split; [done|]; rewrite E3; apply lookup_insert|]. rewrite (Hq q Hne). destruct (inv_phase w I q) as [?|[?|(s & E & _)]]; [by left|right; by left|]. by destruct (N q s).
        -- intros s x. rewrite E3. destruct (decide (s = w_next w)) as [->|Hs]; [eauto|]. rewrite lookup_insert_ne by done. intros E. destruct (inv_sock w I s x E) as [q Eq]. by destruct (N q s).
        -- intros q r s Eq Er. destruct (decide (q = p)) as [->|Hn]; [destruct (decide (r = p)) as [->|Hr]; [done|]|]; [rewrite (Hq r Hr) in Er; by destruct (N r s)|rewrite (Hq q Hn) in Eq; by destruct (N q s)].
      * split.
        -- intros q. destruct (decide (q = p)) as [->|Hne]; [eauto|]. rewrite (Hq q Hne), E2, E3. apply (inv_phase w I q).
        -- intros s x. rewrite E3. intros E. destruct (inv_sock w I s x E) as [q Eq]. exists q. rewrite Hq; [done|]. intros ->. congruence.
        -- intros q r s Eq Er. destruct (decide (q = p)) as [->|Hn]; [congruence|]. destruct (decide (r = p)) as [->|Hr]; [congruence|]. rewrite (Hq _ Hn) in Eq. rewrite (Hq _ Hr) in Er. by apply (inv_one w I q r s).
    + unfold un_start. by rewrite us_failed by done.
    + unfold un_start. by rewrite (us_serving _ _ _ _ s) by done.
  - unfold un_exit. destruct (inv_phase w I p) as [Hp|[Hp|(s & Hp & _)]]; rewrite Hp.
    1,2: unfold un_crash; rewrite Hp; split; [intros q; rewrite proc_set; case_decide; [by left|apply (inv_phase w I q)]|intros s x E; destruct (inv_sock w I s x E) as [q Eq]; exists q; rewrite proc_set; case_decide; [congruence|done]|intros q r s; rewrite !proc_set; case_decide; [done|]; case_decide; [done|]; apply (inv_one w I q r s)].
    destruct (inv_only w p s I Hp) as (E1 & E2 & E3 & E4). unfold un_crash. rewrite Hp. apply inv_none.
    + intros q. change (proc q (set_proc p PIdle (set_sock s None w)) = PIdle \/ proc q (set_proc p PIdle (set_sock s None w)) = PFailed). rewrite !proc_set. case_decide; [by left|by apply E3].
    + cbn. apply map_eq. intros t. rewrite lookup_empty. destruct (decide (t = s)) as [->|Ht]; [by rewrite lookup_partial_alter|]. rewrite lookup_partial_alter_ne by done. by apply E4.
  - destruct (inv_phase w I p) as [Hp|[Hp|(s & Hp & _)]].
    1,2: unfold un_crash; rewrite Hp; split; [intros q; rewrite proc_set; case_decide; [by left|apply (inv_phase w I q)]|intros s x E; destruct (inv_sock w I s x E) as [q Eq]; exists q; rewrite proc_set; case_decide; [congruence|done]|intros q r s; rewrite !proc_set; case_decide; [done|]; case_decide; [done|]; apply (inv_one w I q r s)].
    destruct (inv_only w p s I Hp) as (E1 & E2 & E3 & E4). unfold un_crash. rewrite Hp. apply inv_none.
    + intros q. rewrite !proc_set. case_decide; [by left|by apply E3].
    + cbn. apply map_eq. intros t. rewrite lookup_empty. destruct (decide (t = s)) as [->|Ht]; [by rewrite lookup_partial_alter|]. rewrite lookup_partial_alter_ne by done. by apply E4.
Qed.
Lemma inv_runs l w : Forall quiet l -> inv w -> inv (un_runs l w).
Proof. unfold un_runs. intros H. revert w. induction H as [|e l He Hl IH]; intros w I; cbn; [done|]. apply IH. by apply inv_run. Qed.
Lemma inv_init n : inv (un_init n).
Proof. apply inv_none; [intros p; by left|done]. Qed.
(** Whatever is at the path at first: at most one instance serves, clients that connect reach it, and they reach nobody if none serves. *)
Theorem C83_one n l : Forall quiet l -> let w := un_runs l (un_init n) in
  (forall p q s t, proc p w = PServing s -> proc q w = PServing t -> p = q /\ s = t) /\
  (forall s, un_reaches w = Some s <-> exists p, proc p w = PServing s).
Proof.
  intros Q w. assert (I : inv w) by (by apply inv_runs, inv_init). clearbody w. split.
  - intros p q s t Hp Hq. destruct (inv_only w p s I Hp) as (E & _). destruct (inv_only w q t I Hq) as (E' & _). assert (s = t) as -> by congruence. split; [|done]. by apply (inv_one w I p q t).
  - intros s. unfold un_reaches. split.
    + destruct (w_path w) as [| |t]; try done. destruct (w_socks w !! t) as [[]|] eqn:E; try done. intros [= ->]. by apply (inv_sock w I s _ E).
    + intros [p Hp]. destruct (inv_only w p s I Hp) as (-> & -> & _). done.
Qed.
Print Assumptions C83_one.
(** An instance that ends leaves the path free; one that crashes leaves its socket there; either way the next start succeeds. *)
Theorem C83_restart n l p s : Forall quiet l -> let w := un_runs l (un_init n) in proc p w = PServing s ->
  w_path (un_exit p w) = NNothing /\ w_path (un_crash p w) = NSocket s /\
  forall q w', (w' = un_exit p w \/ w' = un_crash p w) -> proc q w' = PIdle -> un_reaches (un_start true q w') = Some (w_next w') /\ proc q (un_start true q w') = PServing (w_next w').
Proof.
  intros Q w Hp. assert (I : inv w) by (by apply inv_runs, inv_init). clearbody w. destruct (inv_only w p s I Hp) as (E1 & E2 & E3 & E4).
  assert (Ec : un_crash p w = set_proc p PIdle (set_sock s None w)) by (unfold un_crash; by rewrite Hp).
  assert (Ee : un_exit p w = set_path NNothing (un_crash p w)) by (unfold un_exit; by rewrite Hp).
  split; [by rewrite Ee|]. split; [by rewrite Ec|]. intros q w' Hw' Hq. destruct (C83_start true q w' Hq) as [[Hc _ F1 F2 F3|Hc F1 F2 F3] _].
  - split; [|done]. unfold un_reaches. rewrite F2, F3, lookup_insert. done.
  - exfalso. destruct Hc as [?|Hc]; [done|]. destruct Hw' as [-> | ->]; rewrite ?Ee, Ec in Hc; cbn in Hc.
    + destruct Hc as [[c ?]|(t & ? & _)]; done.
    + rewrite E1 in Hc. destruct Hc as [[c ?]|(t & [= <-] & E)]; [done|]. by rewrite lookup_partial_alter in E.
Qed.
Print Assumptions C83_restart.
(** What is at the path and is no socket stays there, however the system calls of all instances interleave. *)
Theorem C83_file c l : Forall (fun e => match e with UUser _ => False | _ => True end) l -> w_path (un_runs l (un_init (NFile c))) = NFile c.
Proof.
  intros H. assert (G : forall w, w_path w = NFile c -> (forall p, proc p w = PIdle \/ proc p w = PFailed) -> w_path (un_runs l w) = NFile c); [|apply G; [done|intros p; by left]].
  assert (S : forall perm p w, w_path w = NFile c -> (forall p, proc p w = PIdle \/ proc p w = PFailed) -> w_path (un_step perm p w) = NFile c /\ forall q, proc q (un_step perm p w) = PIdle \/ proc q (un_step perm p w) = PFailed).
  { intros perm p w Hw Hp. destruct (Hp p) as [E|E]; [rewrite s_idle by done; rewrite Hw|by rewrite s_failed by done]. split; [done|]. intros q. rewrite !proc_set. case_decide; [by right|apply Hp]. }
  assert (K : forall p w, w_path w = NFile c -> (forall p, proc p w = PIdle \/ proc p w = PFailed) -> un_crash p w = set_proc p PIdle w /\ un_exit p w = set_proc p PIdle w).
  { intros p w _ Hp. unfold un_exit, un_crash. by destruct (Hp p) as [-> | ->]. }
  unfold un_runs. induction H as [|e l He Hl IH]; intros w Hw Hp; cbn [foldl]; [done|].
  enough (w_path (un_run e w) = NFile c /\ forall q, proc q (un_run e w) = PIdle \/ proc q (un_run e w) = PFailed) as [? ?] by (by apply IH).
  destruct e as [perm p|perm p|p|p|]; try done; cbn [un_run].
  - by apply S.
  - unfold un_start. assert (L : forall k w, w_path w = NFile c -> (forall p, proc p w = PIdle \/ proc p w = PFailed) -> w_path (un_steps k perm p w) = NFile c /\ forall q, proc q (un_steps k perm p w) = PIdle \/ proc q (un_steps k perm p w) = PFailed); [|by apply L].
    clear - S. induction k as [|k IH]; intros w Hw Hp; cbn [un_steps]; [done|]. destruct (S perm p w Hw Hp). by apply IH.
  - destruct (K p w Hw Hp) as [_ ->]. split; [done|]. intros q. rewrite !proc_set. case_decide; [by left|apply Hp].
  - destruct (K p w Hw Hp) as [-> _]. split; [done|]. intros q. rewrite !proc_set. case_decide; [by left|apply Hp].
Qed.
Print Assumptions C83_file.

(** * Steps that interleave *)
Local Transparent un_step.
Definition steps_of (l : list N) : list un_event := map (UStep true) l.
(** Two instances that start at once over a socket that is left over: the second removes the socket of the first, which serves nobody any more and does not know. *)
Theorem C83_steal_refuted : let w := un_runs (steps_of [1; 2; 1; 2; 1; 1; 1; 2; 2; 2]%N) (un_init (NSocket 77)) in
  proc 1 w = PServing 0 /\ proc 2 w = PServing 1 /\ un_reaches w = Some 1%N.
Proof. vm_compute. done. Qed.
(** A socket that is bound but does not listen yet is taken for one that is left over. *)
Theorem C83_bound_refuted : let w := un_runs (steps_of [1; 1; 2; 2; 1; 2; 2; 2]%N) (un_init NNothing) in
  proc 1 w = PServing 0 /\ proc 2 w = PServing 1 /\ un_reaches w = Some 1%N.
Proof. vm_compute. done. Qed.
(** An instance that ends removes what is at the path, also if it is the socket of another instance. *)
Theorem C83_exit_refuted : let w := un_runs [UStart true 1; UUser NNothing; UStart true 2; UExit 1]%N (un_init NNothing) in
  proc 2 w = PServing 1 /\ un_reaches w = None /\ w_path w = NNothing.
Proof. vm_compute. done. Qed.
Print Assumptions C83_steal_refuted.
Print Assumptions C83_bound_refuted.
Print Assumptions C83_exit_refuted.

(** * Accepting *)
(** The connections come with new numbers. *)
Definition fresh (l : list acc_event) : Prop := NoDup (omap (fun e => match e with ConnOk f => Some f | _ => None end) l).
Fixpoint before_error (l : list acc_event) : list N := match l with [] => [] | ConnOk f :: l' => f :: before_error l' | ConnError _ :: _ => [] | FaceClosed _ :: l' => before_error l' end.
(** The size of the channel is the number of its open faces; every connection gets one face, until accepting fails for the first time. *)
Theorem C83_accept l : fresh l -> let a := acc_steps l acc_init in
  u_size a = Z.of_nat (size (u_open a)) /\ u_told a = before_error l /\ (forall f, f ∈ u_open a -> f ∈ before_error l) /\ (u_armed a = true <-> forall b, ConnError b ∉ l) /\ (u_errors a <= 1)%nat.
Proof.
  enough (G : forall l a, NoDup (u_told a ++ omap (fun e => match e with ConnOk f => Some f | _ => None end) l) -> (forall f, f ∈ u_open a -> f ∈ u_told a) -> u_size a = Z.of_nat (size (u_open a)) -> (u_errors a <= if u_armed a then 0 else 1)%nat ->
    let a' := acc_steps l a in u_size a' = Z.of_nat (size (u_open a')) /\ u_told a' = (if u_armed a then u_told a ++ before_error l else u_told a) /\ (forall f, f ∈ u_open a' -> f ∈ u_told a') /\ (u_armed a' = true <-> u_armed a = true /\ forall b, ConnError b ∉ l) /\ (u_errors a' <= 1)%nat).
  { intros F a. destruct (G l acc_init F) as (G1 & G2 & G3 & G4 & G5); [set_solver|done|done|]. fold a in G1, G2, G3, G4, G5. cbn in G2, G4. rewrite G2 in G3. split; [done|]. split; [done|]. split; [done|]. split; [|done]. rewrite G4. tauto. }
  clear l. unfold acc_steps. induction l as [|e l IH]; intros a N O Sz X; cbn [foldl].
  - cbn. split; [done|]. split; [destruct (u_armed a); [by rewrite app_nil_r|done]|]. split; [done|]. split; [|destruct (u_armed a); lia]. split; [intros E; split; [done|set_solver]|by intros [? _]].
  - destruct e as [f|b|f]; cbn [acc_step].
    + destruct (u_armed a) eqn:A.
      * destruct (IH (Acceptor true (u_size a + 1) ({[f]} ∪ u_open a) (u_told a ++ [f]) (u_errors a))) as (G1 & G2 & G3 & G4 & G5); cbn [u_told u_open u_size u_errors u_armed].
        -- rewrite <- app_assoc. done.
        -- intros g Hg. apply elem_of_app. apply elem_of_union in Hg as [->%elem_of_singleton|Hg]; [right; by apply elem_of_list_singleton|left; by apply O].
        -- rewrite size_union; [rewrite size_singleton, Sz; lia|]. apply disjoint_singleton_l. intros Hf%O. apply NoDup_app in N as (_ & N & _). apply (N f Hf). cbn. apply elem_of_cons. by left.
        -- lia.
        -- split; [done|]. split; [rewrite G2; cbn; by rewrite <- app_assoc|]. split; [done|]. split; [|done]. rewrite G4. cbn. split; intros [? H]; (split; [done|]); intros b Hb; [apply elem_of_cons in Hb as [?|Hb]; [done|]; by apply (H b)|apply (H b); apply elem_of_cons; by right].
      * destruct (IH a) as (G1 & G2 & G3 & G4 & G5); [|done|done|by rewrite A|].
        -- cbn in N. apply NoDup_app in N as (N1 & N2 & N3). apply NoDup_app. split; [done|]. split; [|by apply NoDup_cons in N3 as [_ ?]]. intros g Hg Hl. apply (N2 g Hg). apply elem_of_cons. by right.
        -- rewrite A in *. split; [done|]. split; [done|]. split; [done|]. split; [|done]. rewrite G4. split; intros [? _]; done.
    + destruct (u_armed a) eqn:A.
      * destruct (IH (Acceptor false (u_size a) (u_open a) (u_told a) (if b then u_errors a else S (u_errors a)))) as (G1 & G2 & G3 & G4 & G5); [done|done|done|cbn; destruct b; lia|].
        cbn in *. split; [done|]. split; [by rewrite app_nil_r|]. split; [done|]. split; [|done]. rewrite G4. split; intros [? H]; [done|]. exfalso. apply (H b). apply elem_of_cons. by left.
      * destruct (IH a) as (G1 & G2 & G3 & G4 & G5); [done|done|done|by rewrite A|]. rewrite A in *. split; [done|]. split; [done|]. split; [done|]. split; [|done]. rewrite G4. split; intros [? _]; done.
    + assert (Q : forall l' : list acc_event, (forall b, ConnError b ∉ FaceClosed f :: l') <-> forall b, ConnError b ∉ l').
      { intros l'. split; intros H b Hb; [apply (H b); apply elem_of_cons; by right|apply elem_of_cons in Hb as [?|Hb]; [done|]; by apply (H b)]. }
      setoid_rewrite Q. case_decide as D; [|apply IH; done].
      apply (IH (Acceptor (u_armed a) (u_size a - 1) (u_open a ∖ {[f]}) (u_told a) (u_errors a))); cbn; [done|intros g Hg; apply O; set_solver| |done].
      rewrite Sz. rewrite size_difference by set_solver. rewrite size_singleton. assert (size (u_open a) <> 0)%nat; [|lia]. intros E%size_empty_inv. set_solver.
Qed.
Print Assumptions C83_accept.
(** One failure, as when too many files are open for a moment, ends accepting for good: later connections get no face, though the socket listens. *)
Theorem C83_accept_refuted : let a := acc_steps [ConnOk 1; ConnError false; ConnOk 2; ConnOk 3]%N acc_init in u_told a = [1%N] /\ u_armed a = false /\ u_errors a = 1%nat.
Proof. vm_compute. done. Qed.
Print Assumptions C83_accept_refuted.

(** * Examples *)
Example C83_ex : let l := [UStart true 1; UStart true 2; UCrash 1; UExit 2; UStart true 2; UStart false 3; UExit 2]%N in
  Forall quiet l /\ proc 2 (un_runs (take 5 l) (un_init (NSocket 9))) = PServing 1 /\ w_path (un_runs l (un_init (NSocket 9))) = NNothing.
Proof. split; [repeat constructor|]. vm_compute. done. Qed.
Example C83_ex_accept : fresh [ConnOk 1; ConnOk 2; FaceClosed 1; ConnOk 3]%N /\ u_size (acc_steps [ConnOk 1; ConnOk 2; FaceClosed 1; ConnOk 3]%N acc_init) = 2%Z.
Proof. split; [apply (bool_decide_unpack _); vm_compute; exact I|vm_compute; done]. Qed.
