(** C86: the levels of the log. *)
From Coq Require Import String Ascii.
From stdpp Require Import list strings.
From Verif Require Import Lib Lg_Model.
Open Scope list_scope.
Set Default Proof Using "Type".

Section log.
Context {Level : Type} (parse_level : string -> option Level) (INFO : Level).
(** The entries for modules, and which modules one names: a name without a dot is one of NFD; a star at the end stands for anything. *)
Definition entries (l : list (string * string)) : list (string * string) := List.filter (fun kv => negb (String.eqb (fst kv) "default_level")) l.
Definition dotted (k : string) : Prop := exists a b, k = String.append a (String "." b).
Definition full_name (k n : string) : Prop := (dotted k /\ n = k) \/ (~ dotted k /\ n = String.append "nfd." k).
Definition covers (n m : string) : Prop := n = m \/ exists p r, n = String.append p "*" /\ m = String.append p r.
Definition names (k m : string) : Prop := exists n, full_name k n /\ covers n m.
Definition valid (l : list (string * string)) : Prop :=
  (forall v, first_of "default_level" l = Some v -> is_Some (parse_level v)) /\ forall k v, (k, v) ∈ entries l -> is_Some (parse_level v).
Lemma has_dot_spec k : has_dot k = true <-> dotted k.
Proof.
  unfold dotted. induction k as [|c k IH]; cbn; [split; [done|]; intros ([|x a] & b & H); discriminate H|]. rewrite orb_true_iff, IH. split.
  - intros [->%Ascii.eqb_eq|(a & b & ->)]; [by exists EmptyString, k|by exists (String c a), b].
  - intros ([|x a] & b & H); cbn in H; injection H as -> ->; [left; done|right; eauto].
Qed.
Lemma matches_spec p : forall m, pattern_matches p m = true <-> covers p m.
Proof.
  unfold covers. induction p as [|c p IH]; intros m; cbn [pattern_matches].
  - destruct m as [|d m].
    + split; [by left|done].
    + split; [done|]. intros [H|([|x q] & r & H & _)]; discriminate H.
  - rewrite orb_true_iff, andb_true_iff. split.
    + intros [[->%Ascii.eqb_eq H]|H].
      * destruct p; [|done]. right. by exists EmptyString, m.
      * destruct m as [|d m]; [done|]. apply andb_true_iff in H as [->%Ascii.eqb_eq H]. apply IH in H as [->|(q & r & -> & ->)]; [by left|]. right. by exists (String d q), r.
    + intros [<-|([|x q] & r & H & ->)].
      * right. rewrite Ascii.eqb_refl. cbn. apply IH. by left.
      * cbn in H. injection H as -> ->. by left.
      * cbn in H. injection H as -> ->. right. change (String.append (String x q) r) with (String x (String.append q r)). cbv iota. rewrite Ascii.eqb_refl. cbn [andb]. apply IH. right. by exists q, r.
Qed.
Lemma pattern_spec k m : pattern_matches (pattern_of k) m = true <-> names k m.
Proof.
  rewrite matches_spec. unfold names, full_name, pattern_of. destruct (has_dot k) eqn:E.
  - apply has_dot_spec in E. split; [intros H; exists k; auto|]. intros (n & [[_ ->]|[H _]] & Hc); done.
  - assert (N : ~ dotted k) by (rewrite <- has_dot_spec, E; done). split; [intros H; eexists; split; [right; done|done]|]. intros (n & [[H _]|[_ ->]] & Hc); done.
Qed.
(** The level that a section gives a module: that of the last entry that names it; otherwise the default for modules of NFD, and none for others. *)
Inductive chosen (l : list (string * string)) (m : string) (cur : Level) : Level -> Prop :=
| ch_entry l1 k v l2 lv : entries l = l1 ++ (k, v) :: l2 -> names k m -> (forall k' v', (k', v') ∈ l2 -> ~ names k' m) -> parse_level v = Some lv -> chosen l m cur lv
| ch_default lv : (forall k v, (k, v) ∈ entries l -> ~ names k m) -> (exists r, m = String.append "nfd." r) -> match first_of "default_level" l with Some v => parse_level v = Some lv | None => lv = INFO end -> chosen l m cur lv
| ch_none : (forall k v, (k, v) ∈ entries l -> ~ names k m) -> (~ exists r, m = String.append "nfd." r) -> chosen l m cur cur.
Lemma entries_cons k v l : entries ((k, v) :: l) = if String.eqb k "default_level" then entries l else (k, v) :: entries l.
Proof. unfold entries. cbn. by destruct (String.eqb k "default_level"). Qed.
Lemma each_ok dry m l : forall cur, snd (each parse_level dry m l cur) = true <-> forall k v, (k, v) ∈ entries l -> is_Some (parse_level v).
Proof.
  induction l as [|[k v] l IH]; intros cur; [split; [intros _ ? ? ?%elem_of_nil; done|done]|]. cbn [each]. rewrite entries_cons. destruct (String.eqb k "default_level"); [apply IH|].
  destruct (parse_level v) as [lv|] eqn:E.
  - rewrite IH. split; intros H k' v'; [intros [[= -> ->]|Hin]%elem_of_cons; [by rewrite E|by apply (H k')]|]. intros Hin. apply (H k'). apply elem_of_cons. by right.
  - split; [done|]. intros H. destruct (H k v) as [? X]; [apply elem_of_cons; by left|congruence].
Qed.
Lemma each_dry m l cur : fst (each parse_level true m l cur) = cur.
Proof. induction l as [|[k v] l IH]; [done|]. cbn. destruct (String.eqb k "default_level"); [done|]. by destruct (parse_level v). Qed.
Lemma each_real m l : forall cur, snd (each parse_level false m l cur) = true ->
  let lv := fst (each parse_level false m l cur) in
  (exists l1 k v l2, entries l = l1 ++ (k, v) :: l2 /\ names k m /\ (forall k' v', (k', v') ∈ l2 -> ~ names k' m) /\ parse_level v = Some lv) \/ ((forall k v, (k, v) ∈ entries l -> ~ names k m) /\ lv = cur).
Proof.
  induction l as [|[k v] l IH]; intros cur H; [right; split; [intros ? ? ?%elem_of_nil; done|done]|]. cbn [each] in *. rewrite entries_cons. destruct (String.eqb k "default_level"); [by apply IH|].
  destruct (parse_level v) as [lv0|] eqn:E; [|done]. specialize (IH _ H). cbn zeta in *. destruct IH as [(l1 & k1 & v1 & l2 & E1 & E2 & E3 & E4)|[E1 E2]].
  - left. exists ((k, v) :: l1), k1, v1, l2. rewrite E1. done.
  - unfold set_level in *. destruct (pattern_matches (pattern_of k) m) eqn:P.
    + left. exists [], k, v, (entries l). apply pattern_spec in P. split; [done|]. split; [done|]. split; [done|]. by rewrite E2.
    + right. split; [|done]. intros k' v' [[= -> ->]|Hin]%elem_of_cons; [|by apply (E1 k' v')]. rewrite <- pattern_spec. by rewrite P.
Qed.
Lemma nfd_star m : pattern_matches "nfd.*" m = true <-> exists r, m = String.append "nfd." r.
Proof.
  rewrite matches_spec. split.
  - intros [<-|(p & r & E & ->)]; [by exists "*"%string|]. exists r. do 4 (destruct p as [|? p]; [discriminate E|]; cbn in E; injection E as -> E). destruct p as [|? [|? ?]]; [done| |]; discriminate E.
  - intros [r ->]. right. by exists "nfd."%string, r.
Qed.
(** A section is applied exactly if all its levels are valid; then every module has the level that the section gives it, and otherwise nothing changes. *)
Theorem C86_levels m l cur lv ok : configure_logging parse_level INFO m l cur = (lv, ok) ->
  (ok = true <-> valid l) /\ (ok = true -> chosen l m cur lv) /\ (ok = false -> lv = cur).
Proof.
  unfold configure_logging, on_log, valid. destruct (first_of "default_level" l) as [v|] eqn:F.
  2: assert (Q : exists d, d = INFO) by eauto; destruct Q as [d Hd]; rewrite <- Hd.
  1: destruct (parse_level v) as [d|] eqn:Hd; [|intros [= <- <-]; split; [|done]; split; [done|]; intros [H _]; destruct (H v eq_refl); congruence].
  all: destruct (each parse_level true m l cur) as [c b] eqn:E1; assert (Ec := each_dry m l cur); rewrite E1 in Ec; cbn in Ec; subst c.
  all: assert (Ok := each_ok true m l cur); rewrite E1 in Ok; cbn in Ok.
  all: destruct b.
  2: { intros [= <- <-]. split; [|done]. split; [done|]. intros [_ H]. by apply Ok. }
  3: { intros [= <- <-]. split; [|done]. split; [done|]. intros [_ H]. by apply Ok. }
  all: intros E; assert (Ok2 := each_ok false m l (set_level m "nfd.*" d cur)); assert (R := each_real m l (set_level m "nfd.*" d cur)); rewrite E in Ok2, R; cbn in Ok2, R.
  all: assert (ok = true) as -> by (by apply Ok2, Ok); specialize (R eq_refl).
  all: split; [split; [intros _; split; [intros w Hw; try discriminate Hw; injection Hw as <-; by rewrite Hd|by apply Ok]|done]|]; split; [intros _|done].
  all: destruct R as [(l1 & k1 & v1 & l2 & R1 & R2 & R3 & R4)|[R1 R2]]; [by eapply ch_entry|].
  all: unfold set_level in R2; destruct (pattern_matches "nfd.*" m) eqn:P; [apply ch_default; [done|by apply nfd_star|rewrite F; congruence]|rewrite R2; apply ch_none; [done|rewrite <- nfd_star; by rewrite P]].
Qed.
(** A second default level is ignored, and not even checked. *)
Theorem C86_second_refuted a m cur lv : parse_level a = Some lv -> (exists r, m = String.append "nfd." r) -> forall b, configure_logging parse_level INFO m [("default_level"%string, a); ("default_level"%string, b)] cur = (lv, true).
Proof.
  intros E [r ->] b. unfold configure_logging, on_log. cbn. rewrite E. done.
Qed.
(** A level that was given to a module that is not of NFD stays when its entry is removed. *)
Theorem C86_stays_refuted a cur lv : parse_level a = Some lv ->
  fst (configure_logging parse_level INFO "ndn.Face" [] (fst (configure_logging parse_level INFO "ndn.Face" [("ndn.Face"%string, a)] cur))) = lv /\
  fst (configure_logging parse_level INFO "nfd.Face" [] (fst (configure_logging parse_level INFO "nfd.Face" [("Face"%string, a)] cur))) = INFO.
Proof. intros E. unfold configure_logging, on_log. cbn. rewrite E. cbn. done. Qed.
End log.
Print Assumptions C86_levels.
Print Assumptions C86_second_refuted.
Print Assumptions C86_stays_refuted.

(** * Examples *)
Definition ex_level (s : string) : option N := if String.eqb s "DEBUG" then Some 5%N else if String.eqb s "WARN" then Some 2%N else None.
Definition ex_log : list (string * string) := [("Forwarder", "DEBUG"); ("default_level", "WARN"); ("ndn.*", "WARN"); ("For*", "WARN")]%string.
Example C86_ex : configure_logging ex_level 3%N "nfd.Forwarder" ex_log 0%N = (2%N, true) /\ configure_logging ex_level 3%N "nfd.Cs" ex_log 0%N = (2%N, true) /\ configure_logging ex_level 3%N "ndn.Face" ex_log 0%N = (2%N, true) /\
  configure_logging ex_level 3%N "other" ex_log 0%N = (0%N, true) /\ configure_logging ex_level 3%N "nfd.Cs" [("Cs", "LOUD")]%string 0%N = (0%N, false).
Proof. vm_compute. done. Qed.
