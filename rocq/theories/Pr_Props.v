(** C85: the daemon runs as the user and group that are configured. *)
From Coq Require Import String.
From stdpp Require Import list.
From Verif Require Import Lib Pr_Model.
Open Scope list_scope.
Set Default Proof Using "Type".

(** A process that was started by one user, with one group. *)
Definition started_as (u g : N) (gs : list N) : creds := Creds u u u g g g gs.
Definition effective (p : priv) : N * N := (c_euid (p_c p), c_egid (p_c p)).
Definition configured (p : priv) : N * N := (p_nuid p, p_ngid p).

Section lookup.
Context (user_id group_id : string -> option N).
(** The operations of the daemon after it has been started: configuration files, elevated functions, dropping. *)
Inductive op := OConfig (l : list (string * string)) | OElevated (throws : bool) | ODrop.
(** None: an exception that the operation itself does not throw *)
Definition run_op (o : op) (p : priv) : option (option creds * priv) :=
  match o with
  | OConfig l => match on_config user_id group_id l p with Some (inl q) => Some (None, q) | _ => None end
  | OElevated t => match run_elevated t p with (Some c, inl q) => Some (Some c, q) | (Some c, inr q) => if t then Some (Some c, q) else None | _ => None end
  | ODrop => match drop_priv p with inl q => Some (None, q) | inr _ => None end
  end.
(** What a general section says: the last user and the last group, none of which is empty. *)
Definition named (k : string) (l : list (string * string)) : option string := last (omap (fun kv => if String.eqb (fst kv) k then Some (snd kv) else None) l).
Lemma default_last (v g : string) (l : list string) : default v (last l) = default g (last (v :: l)).
Proof. rewrite last_cons. by destruct (last l). Qed.
Lemma general_spec l : forall u g, general_read l u g =
  if existsb (fun kv => (String.eqb (fst kv) "user" || String.eqb (fst kv) "group") && String.eqb (snd kv) "") l then None
  else Some (default u (named "user" l), default g (named "group" l)).
Proof.
  unfold named. induction l as [|[k v] l IH]; intros u g; [done|]. cbn [general_read existsb fst snd omap list_omap].
  destruct (String.eqb k "user") eqn:Eu.
  - apply String.eqb_eq in Eu. subst k. cbn [String.eqb orb andb Ascii.eqb Bool.eqb]. change (String.eqb "user" "group") with false. cbn [orb andb].
    destruct (String.eqb v ""); cbn [orb]; [done|]. rewrite IH. destruct (existsb _ l); [done|]. f_equal. f_equal. apply default_last.
  - destruct (String.eqb k "group") eqn:Eg; cbn [orb andb].
    + destruct (String.eqb v ""); cbn [orb]; [done|]. rewrite IH. destruct (existsb _ l); [done|]. f_equal. f_equal. apply default_last.
    + apply IH.
Qed.
(** A section is accepted exactly if no user and no group is empty and those named last exist; they are then configured, and what is not named stays. The process itself does not change. *)
Theorem C85_config l p q : on_config user_id group_id l p = Some (inl q) <->
  (forall k v, (k, v) ∈ l -> (k = "user" \/ k = "group")%string -> v <> ""%string) /\
  (match named "user" l with Some n => user_id n | None => Some (p_nuid p) end = Some (p_nuid q)) /\
  (match named "group" l with Some n => group_id n | None => Some (p_ngid p) end = Some (p_ngid q)) /\
  p_c q = p_c p /\ p_puid q = p_puid p /\ p_pgid q = p_pgid p.
Proof.
  unfold on_config. rewrite general_spec.
  assert (X : existsb (fun kv => (String.eqb (fst kv) "user" || String.eqb (fst kv) "group") && String.eqb (snd kv) "") l = false <-> forall k v, (k, v) ∈ l -> (k = "user" \/ k = "group")%string -> v <> ""%string).
  { rewrite <- not_true_iff_false, existsb_exists. split.
    - intros H k v Hin Hk ->. apply H. exists (k, ""%string). split; [by apply elem_of_list_In|]. cbn. apply andb_true_iff. split; [|done]. apply orb_true_iff. rewrite !String.eqb_eq. done.
    - intros H ([k v] & Hin & [Hk Hv]%andb_true_iff). apply orb_true_iff in Hk. cbn in Hk, Hv. rewrite !String.eqb_eq in Hk. apply String.eqb_eq in Hv. by apply (H k v); [apply elem_of_list_In|..]. }
  assert (NE : forall k n, (k = "user" \/ k = "group")%string -> (forall k v, (k, v) ∈ l -> (k = "user" \/ k = "group")%string -> v <> ""%string) -> named k l = Some n -> String.eqb n "" = false).
  { intros k n Hk H E. apply String.eqb_neq. unfold named in E. apply last_Some_elem_of in E. apply elem_of_list_omap in E as ([k' v] & Hin & E). cbn in E. destruct (String.eqb k' k) eqn:Ek; [|done]. apply String.eqb_eq in Ek. simplify_eq. by apply (H k n). }
  destruct (existsb _ l); [split; [done|]; intros (H & _); apply X in H; done|]. assert (H := proj1 X eq_refl). clear X. unfold initialize.
  assert (Eg : (if String.eqb (default ""%string (named "group" l)) "" then Some (p_ngid p) else group_id (default ""%string (named "group" l))) = match named "group" l with Some n => group_id n | None => Some (p_ngid p) end).
  { destruct (named "group" l) as [n|] eqn:E; [|done]. change (default ""%string (Some n)) with n. rewrite (NE "group"%string n); auto. }
  assert (Eu : (if String.eqb (default ""%string (named "user" l)) "" then Some (p_nuid p) else user_id (default ""%string (named "user" l))) = match named "user" l with Some n => user_id n | None => Some (p_nuid p) end).
  { destruct (named "user" l) as [n|] eqn:E; [|done]. change (default ""%string (Some n)) with n. rewrite (NE "user"%string n); auto. }
  rewrite Eg, Eu. clear Eg Eu NE. destruct (match named "group" l with Some n => group_id n | None => Some (p_ngid p) end) as [g|]; [|split; [done|]; by intros (_ & _ & ? & _)].
  destruct (match named "user" l with Some n => user_id n | None => Some (p_nuid p) end) as [u|]; [|split; [done|]; by intros (_ & ? & _)].
  split; [intros [= <-]; done|]. intros (_ & [= E1] & [= E2] & E3 & E4 & E5). destruct q as [c nu ng pu pg]; cbn in *. by subst.
Qed.

(** The superuser's process: its ids, and how it may be at any time. *)
Definition superuser (g : N) (p : priv) : Prop := c_ruid (p_c p) = 0%N /\ c_suid (p_c p) = 0%N /\ c_rgid (p_c p) = g /\ c_sgid (p_c p) = g /\ p_puid p = 0%N /\ p_pgid p = g.
Lemma drop_root g p : superuser g p -> c_euid (p_c p) = 0%N -> exists q, drop_priv p = inl q /\ effective q = configured p /\ configured q = configured p /\ superuser g q /\ c_groups (p_c q) = c_groups (p_c p).
Proof.
  destruct p as [[ru eu su rg eg sg gs] nu ng pu pg]. unfold superuser, effective, configured, drop_priv, setegid, seteuid. cbn. intros (-> & -> & -> & -> & -> & ->) ->.
  destruct ((0 =? nu)%N && (eg =? ng)%N) eqn:E; [apply andb_true_iff in E as [<-%N.eqb_eq <-%N.eqb_eq]|]; eexists; (split; [reflexivity|]); cbn; done.
Qed.
Lemma raise_root g p : superuser g p -> exists q, raise_priv p = inl q /\ effective q = (0%N, g) /\ configured q = configured p /\ superuser g q /\ c_groups (p_c q) = c_groups (p_c p).
Proof.
  destruct p as [[ru eu su rg eg sg gs] nu ng pu pg]. unfold superuser, effective, configured, raise_priv, setegid, seteuid. cbn. intros (-> & -> & -> & -> & -> & ->).
  destruct ((eu =? 0)%N && (eg =? g)%N) eqn:E; [apply andb_true_iff in E as [->%N.eqb_eq ->%N.eqb_eq]; eexists; (split; [reflexivity|]); cbn; done|].
  rewrite orb_true_r. cbn. eexists; (split; [reflexivity|]); cbn; done.
Qed.
(** Started by the superuser: an elevated function runs as the superuser with the first group, and afterwards, also if it throws, the process is the configured user and group; changing ids never fails. *)
Theorem C85_elevated g p t : superuser g p -> exists c q, run_elevated t p = (Some c, if t then inr q else inl q) /\
  c_euid c = 0%N /\ c_egid c = g /\ effective q = configured p /\ configured q = configured p /\ superuser g q.
Proof.
  intros S. unfold run_elevated. destruct (raise_root g p S) as (p1 & -> & E1 & C1 & S1 & _). unfold effective in E1. injection E1 as E1 E1'.
  destruct (drop_root g p1 S1 E1) as (p2 & -> & E2 & C2 & S2 & _). exists (p_c p1), p2. rewrite C1 in *. split; [by destruct t|]. done.
Qed.
(** The daemon is started by the superuser; None: an operation has failed. *)
Definition history (g : N) (gs : list N) (ops : list op) : option priv :=
  foldl (fun s o => match s with Some p => match run_op o p with Some (_, q) => Some q | None => None end | None => None end) (Some (priv_init (started_as 0 g gs))) ops.
Lemma history_snoc g gs ops o : history g gs (ops ++ [o]) = match history g gs ops with Some p => match run_op o p with Some (_, q) => Some q | None => None end | None => None end.
Proof. unfold history. by rewrite foldl_app. Qed.
(** In any history that configures, drops and runs functions elevated, the process is always what was configured at some time before (at first: the superuser), and able to become the superuser. *)
Theorem C85_history g gs ops p : history g gs ops = Some p ->
  superuser g p /\ c_groups (p_c p) = gs /\ exists k p', history g gs (take k ops) = Some p' /\ effective p = configured p'.
Proof.
  revert p. induction ops as [|o ops IH] using rev_ind; intros p; [intros [= <-]; split; [done|]; split; [done|]; by exists 0%nat, (priv_init (started_as 0 g gs))|].
  rewrite history_snoc. destruct (history g gs ops) as [p0|] eqn:E0; [|done]. destruct (IH p0 eq_refl) as (S & Sg & k & p' & Ek & Ee). clear IH.
  assert (Now : exists j q, history g gs (take j (ops ++ [o])) = Some q /\ configured q = configured p0). { exists (length ops), p0. by rewrite take_app. }
  assert (Then : exists j q, history g gs (take j (ops ++ [o])) = Some q /\ effective p0 = configured q). { exists (Nat.min k (length ops)), p'. split; [|done]. rewrite take_app_le by lia. destruct (decide (k <= length ops)%nat); [by rewrite Nat.min_l by lia|]. rewrite Nat.min_r by lia. rewrite take_ge in Ek by lia. by rewrite take_ge by lia. }
  destruct o as [l|t|]; cbn [run_op].
  - destruct (on_config user_id group_id l p0) as [[q|q]|] eqn:E; try done. intros [= <-]. apply C85_config in E as (_ & _ & _ & Ec & E1 & E2). unfold superuser, effective in *. by rewrite Ec, E1, E2.
  - unfold run_elevated. destruct (raise_root g p0 S) as (p1 & -> & E1 & C1 & S1 & G1). unfold effective in E1. injection E1 as E1 E1'. destruct (drop_root g p1 S1 E1) as (p2 & -> & E2 & C2 & S2 & G2).
    destruct Now as (j & q & Hj & Hq). destruct t; intros [= <-]; (split; [done|]; split; [congruence|]; exists j, q; split; [done|congruence]).
  - destruct Now as (j & q & Hj & Hq). unfold drop_priv. destruct (_ && _) eqn:X.
    + intros [= <-]. split; [done|]. split; [done|]. exists j, q. split; [done|]. apply andb_true_iff in X as [X1%N.eqb_eq X2%N.eqb_eq]. rewrite Hq. unfold effective, configured. by rewrite X1, X2.
    + destruct (setegid _ _) as [c|] eqn:E1; [|done]. destruct (seteuid _ c) as [c2|] eqn:E2; [|done]. intros [= <-].
      unfold setegid in E1. destruct (_ || _) in E1; [|done]. injection E1 as <-. unfold seteuid in E2. cbn in E2. destruct (_ || _) in E2; [|done]. injection E2 as <-. split; [done|]. split; [done|]. exists j, q. by rewrite Hq.
Qed.
(** The start of the daemon, nfd.cpp:75-89: configuration, then dropping: the process is the configured user and group. *)
Theorem C85_start g gs l p : on_config user_id group_id l (priv_init (started_as 0 g gs)) = Some (inl p) -> exists q, drop_priv p = inl q /\ effective q = configured p.
Proof.
  intros E. apply C85_config in E as (_ & _ & _ & Ec & E1 & E2). destruct (drop_root g p) as (q & H & He & _); [unfold superuser; by rewrite Ec, E1, E2|by rewrite Ec|]. eauto.
Qed.
(** Started by another user, dropping succeeds exactly if nothing is to change. *)
Theorem C85_unprivileged u g gs nu ng : u <> 0%N -> (exists q, drop_priv (Priv (started_as u g gs) nu ng u g) = inl q) <-> nu = u /\ ng = g.
Proof.
  intros Hu. unfold drop_priv, setegid, seteuid. cbn. apply N.eqb_neq in Hu. rewrite Hu. cbn. split.
  - intros [q E]. destruct ((u =? nu)%N && (g =? ng)%N) eqn:X; [apply andb_true_iff in X as [->%N.eqb_eq ->%N.eqb_eq]; done|].
    rewrite orb_diag in E. destruct (ng =? g)%N eqn:Eg; [|done]. cbn in E. rewrite Hu in E. cbn in E. rewrite orb_diag in E. destruct (nu =? u)%N eqn:En; [|done]. apply N.eqb_eq in Eg, En. done.
  - intros [-> ->]. rewrite !N.eqb_refl. eauto.
Qed.
(** Dropping privileges keeps the supplementary groups of the superuser. *)
Theorem C85_groups_refuted g gs p : superuser g p -> c_euid (p_c p) = 0%N -> c_groups (p_c p) = gs -> exists q, drop_priv p = inl q /\ c_groups (p_c q) = gs.
Proof. intros S E <-. destruct (drop_root g p S E) as (q & H & _ & _ & _ & G). eauto. Qed.
(** A function that runs elevated while the daemon is starting, before privileges are to be dropped, leaves them dropped for the rest of the start. *)
Theorem C85_early_refuted u g n : user_id n = Some u -> n <> ""%string -> u <> 0%N -> exists p c q, on_config user_id group_id [("user"%string, n)] (priv_init (started_as 0 g [])) = Some (inl p) /\ effective p = (0%N, g) /\
  run_elevated false p = (Some c, inl q) /\ effective q = (u, g).
Proof.
  intros E Hn Hu. apply String.eqb_neq in Hn. unfold on_config. cbn. rewrite Hn. unfold initialize. cbn. rewrite Hn, E. do 3 eexists. split; [reflexivity|]. split; [done|].
  unfold run_elevated, raise_priv, drop_priv. destruct u as [|u]; [done|]. cbn. rewrite N.eqb_refl. cbn. done.
Qed.
(** Reloading a configuration with another user does not change the process; dropping to that user, without raising first, is not permitted. *)
Theorem C85_reload_refuted u v g n : user_id n = Some v -> n <> ""%string -> u <> 0%N -> v <> 0%N -> u <> v ->
  let p := Priv (Creds 0 u 0 g g g []) u g 0 g in exists q, on_config user_id group_id [("user"%string, n)] p = Some (inl q) /\ effective q = (u, g) /\ configured q = (v, g) /\ exists r, drop_priv q = inr r.
Proof.
  intros E Hn Hu Hv Huv p. apply String.eqb_neq in Hn. unfold on_config. cbn. rewrite Hn. unfold initialize. cbn. rewrite Hn, E. eexists. split; [reflexivity|]. split; [done|]. split; [done|].
  unfold drop_priv, setegid, seteuid. cbn. apply N.eqb_neq in Huv, Hu, Hv. rewrite Huv. cbn. rewrite Hu, N.eqb_refl. cbn. rewrite Hu, Hv. cbn. eauto.
Qed.
End lookup.
Print Assumptions C85_config.
Print Assumptions C85_elevated.
Print Assumptions C85_history.
Print Assumptions C85_start.
Print Assumptions C85_unprivileged.
Print Assumptions C85_groups_refuted.
Print Assumptions C85_early_refuted.
Print Assumptions C85_reload_refuted.

(** * Examples *)
Definition ex_user (n : string) : option N := if String.eqb n "ndn" then Some 1000%N else None.
Example C85_ex : exists p q c r, on_config ex_user ex_user [("user", "ndn"); ("group", "ndn")]%string (priv_init (started_as 0 0 [0; 4]%N)) = Some (inl p) /\ superuser 0 p /\ drop_priv p = inl q /\ effective q = (1000, 1000)%N /\
  run_elevated true q = (Some c, inr r) /\ c_euid c = 0%N /\ effective r = (1000, 1000)%N.
Proof. do 4 eexists. split; [vm_compute; reflexivity|]. split; [done|]. split; [vm_compute; reflexivity|]. split; [done|]. split; [vm_compute; reflexivity|]. done. Qed.
