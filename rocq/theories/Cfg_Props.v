(** C71: processing of the configuration. *)
From Coq Require Import String Ascii.
From stdpp Require Import gmap strings.
From Verif Require Import Lib Cfg_Model Cfg_Spec.
Open Scope string_scope.
Open Scope list_scope.

Section Props.
Context {S : Type} (subscribed : string -> option (@handler S)) (ignored : unknown_callback).
(** C71: processing succeeds exactly if the sections can be processed one after the other, each by its handler *)
Theorem C71_order dry t s s' :
  (forall k h, subscribed k = Some h -> in_range h) ->
  process subscribed ignored dry t s = Done s' <-> chain subscribed ignored dry (pt_children t) s s'.
Proof.
  intros Hr. unfold process. generalize (pt_children t) as l. clear t. intros l. revert s. induction l as [|[k t] l IH]; intros s; cbn [process_sections].
  - split; [intros [= ->]; constructor|]. intros H. by inversion H.
  - destruct (subscribed k) as [h|] eqn:Ek.
    + destruct (h t dry s) as [s1|s1|s1] eqn:Eh.
      * rewrite IH. split; [intros H; by eapply chain_handled|]. intros H. inversion H; subst; congruence.
      * split; [done|]. intros H. inversion H; subst; congruence.
      * by destruct (Hr k h Ek t dry s s1).
    + destruct (ignored k) eqn:Ei.
      * rewrite IH. split; [intros H; by apply chain_ignored|]. intros H. inversion H; subst; congruence.
      * split; [done|]. intros H. inversion H; subst; congruence.
Qed.
(** C71: a dry run changes nothing, whether it succeeds or not *)
Theorem C71_dry t s : (forall k h, subscribed k = Some h -> dry_safe h) -> state_of (process subscribed ignored true t s) = s.
Proof.
  intros Hd. unfold process. generalize (pt_children t) as l. clear t. intros l. revert s. induction l as [|[k t] l IH]; intros s; cbn [process_sections]; [done|].
  destruct (subscribed k) as [h|] eqn:Ek; [|by destruct (ignored k)]. pose proof (Hd k h Ek t s) as K. destruct (h t true s) as [s1|s1|s1]; simpl in K; subst s1; [done|done|]. by destruct (ignored k).
Qed.
(** C71: if the dry run before the start fails, nothing is changed; the result is otherwise that of processing the file *)
Theorem C71_start t s : (forall k h, subscribed k = Some h -> dry_safe h) ->
  configure subscribed ignored t s = process subscribed ignored false t s \/
  (done_b (configure subscribed ignored t s) = false /\ done_b (process subscribed ignored true t s) = false /\ state_of (configure subscribed ignored t s) = s).
Proof.
  intros Hd. unfold configure. pose proof (C71_dry t s Hd) as K. destruct (process subscribed ignored true t s) as [s1|s1|s1]; simpl in K; subst s1; [by left|by right..].
Qed.
(** C71: a section without a handler that may not be left out is an error; the sections before it have been processed *)
Theorem C71_unknown dry k t l1 l2 v s : subscribed k = None -> ignored k = false ->
  process subscribed ignored dry (PTree v (l1 ++ (k, t) :: l2)) s =
  match process subscribed ignored dry (PTree v l1) s with Done s' => Throws s' | o => o end.
Proof.
  intros Hk Hi. unfold process. cbn [pt_children]. revert s. induction l1 as [|[k' t'] l1 IH]; intros s; cbn [app process_sections]; [by rewrite Hk, Hi|].
  destruct (subscribed k') as [h|]; [destruct (h t' dry s) as [s1|s1|s1]; [apply IH|done|]|]; (destruct (ignored k'); [apply IH|done]).
Qed.
(** C71: the sections after an error are not processed *)
Theorem C71_error dry k t h l1 l2 v s s1 s2 : subscribed k = Some h ->
  process subscribed ignored dry (PTree v l1) s = Done s1 -> h t dry s1 = Throws s2 ->
  process subscribed ignored dry (PTree v (l1 ++ (k, t) :: l2)) s = Throws s2.
Proof.
  intros Hk. unfold process. cbn [pt_children]. revert s. induction l1 as [|[k' t'] l1 IH]; intros s; cbn [app process_sections]; [intros [= ->] Hh; by rewrite Hk, Hh|].
  destruct (subscribed k') as [h'|]; [destruct (h' t' dry s) as [s3|s3|s3]; [apply IH|done|]|]; (destruct (ignored k'); [apply IH|done]).
Qed.
End Props.
Print Assumptions C71_order.
Print Assumptions C71_dry.
Print Assumptions C71_start.
Print Assumptions C71_unknown.
Print Assumptions C71_error.

(** ** Values *)
Theorem C71_yes_no t b : parse_yes_no t = Some b <-> pt_value t = if b then "yes" else "no".
Proof.
  unfold parse_yes_no. destruct (String.eqb_spec (pt_value t) "yes") as [->|H1]; [destruct b; split; done|]. destruct (String.eqb_spec (pt_value t) "no") as [->|H2]; [destruct b; split; done|]. split; [done|]. by destruct b.
Qed.
Print Assumptions C71_yes_no.
Lemma is_space_spec c : is_space c = true <-> c ∈ [" "; "009"; "010"; "011"; "012"; "013"]%char.
Proof.
  destruct c as [b0 b1 b2 b3 b4 b5 b6 b7]; destruct b0, b1, b2, b3, b4, b5, b6, b7; vm_compute is_space; (split; [first [done|intros _; set_solver]|first [done|intros H; exfalso; rewrite !elem_of_cons in H; destruct H as [[=]|[[=]|[[=]|[[=]|[[=]|[[=]|H]]]]]]; by apply elem_of_nil in H]]).
Qed.
Lemma digit_spec c d : digit c = Some d <-> c = ascii_of_N (48 + d) /\ (d < 10)%N.
Proof.
  unfold digit. split.
  - destruct (N.leb_spec 48 (N_of_ascii c)); [|done]. destruct (N.leb_spec (N_of_ascii c) 57); [|done]. intros [= <-]. split; [|lia]. replace (48 + (N_of_ascii c - 48))%N with (N_of_ascii c) by lia. by rewrite ascii_N_embedding.
  - intros [-> Hd]. rewrite N_ascii_embedding by lia. destruct (N.leb_spec 48 (48 + d)); [|lia]. destruct (N.leb_spec (48 + d) 57); [|lia]. cbn [andb]. f_equal. lia.
Qed.
Lemma digit_not_space c : is_Some (digit c) -> is_space c = false /\ Ascii.eqb c "+" = false /\ Ascii.eqb c "-" = false.
Proof. destruct c as [b0 b1 b2 b3 b4 b5 b6 b7]; destruct b0, b1, b2, b3, b4, b5, b6, b7; vm_compute; intros [x Hx]; try discriminate Hx; repeat split. Qed.
Lemma skip_spec l : exists ws, l = ws ++ skip_spaces l /\ spaces ws.
Proof.
  induction l as [|c l (ws & E & H)]; [exists []; split; [done|by intros ? ?%elem_of_nil]|]. cbn [skip_spaces]. destruct (is_space c) eqn:Ec.
  - exists (c :: ws). split; [simpl; by rewrite <-E|]. intros c' [->|Hc']%elem_of_cons; [by apply is_space_spec|by apply H].
  - exists []. split; [done|by intros ? ?%elem_of_nil].
Qed.
Lemma skip_app ws l : spaces ws -> skip_spaces (ws ++ l) = skip_spaces l.
Proof. induction ws as [|c ws IH]; intros H; [done|]. cbn [app skip_spaces]. rewrite (proj2 (is_space_spec c)); [apply IH; intros c' Hc'; apply H; by right|apply H; left]. Qed.
Lemma decimal_nonempty l n : decimal l n -> exists c d l', l = c :: l' /\ digit c = Some d.
Proof. induction 1 as [c d Hc Hd|l n c d H (c0 & d0 & l' & -> & E0) Hc Hd]; [exists c, d, []; split; [done|by apply digit_spec]|]. by exists c0, d0, (l' ++ [c]). Qed.
(** the digits of a decimal, with a number before them *)
Lemma take_digits_decimal l n rest : decimal l n -> (match rest with c :: _ => digit c = None | [] => True end) -> take_digits (l ++ rest) 0 = (n, rest).
Proof.
  intros H Hr.
  assert (K : forall l n, decimal l n -> forall r, take_digits (l ++ r) 0 = take_digits r n).
  { induction 1 as [c d Hc Hd|l' n' c d H' IH Hc Hd]; intros r; [simpl; by rewrite (proj2 (digit_spec c d))|]. rewrite <-app_assoc, IH. cbn [app take_digits]. by rewrite (proj2 (digit_spec c d)). }
  rewrite (K l n H). destruct rest as [|c rest]; [done|]. cbn [take_digits]. by rewrite Hr.
Qed.
Lemma take_digits_spec l acc pre : decimal pre acc -> forall n rest, take_digits l acc = (n, rest) -> exists ds, l = ds ++ rest /\ decimal (pre ++ ds) n.
Proof.
  revert acc pre. induction l as [|c l IH]; intros acc pre Hp n rest; cbn [take_digits]; [intros [= <- <-]; exists []; split; [done|by rewrite app_nil_r]|]. destruct (digit c) as [d|] eqn:Ed.
  - apply digit_spec in Ed as [Hc Hd]. intros E. destruct (IH (acc * 10 + d)%N (pre ++ [c]) (decimal_more _ _ _ _ Hp Hc Hd) _ _ E) as (ds & -> & K). exists (c :: ds). split; [done|]. by rewrite <-app_assoc in K.
  - intros [= <- <-]. exists []. split; [done|by rewrite app_nil_r].
Qed.
Lemma no_minus l : existsb (Ascii.eqb "-") l = false <-> "-"%char ∉ l.
Proof.
  rewrite <-not_true_iff_false, existsb_exists. split.
  - intros H Hin. apply H. exists "-"%char. split; [by apply elem_of_list_In|done].
  - intros H (c & Hin & Hc). apply Ascii.eqb_eq in Hc as <-. by apply H, elem_of_list_In.
Qed.
(** C71: a number is read exactly from the decimal texts of numbers below 2^64, with an optional plus sign, between white
    space *)
Theorem C71_number t n : parse_number t = Some n <-> number_text (list_ascii_of_string (pt_value t)) n /\ (n < 2 ^ 64)%N.
Proof.
  unfold parse_number. set (text := list_ascii_of_string (pt_value t)). split.
  - destruct (existsb _ text); [done|]. destruct (skip_spec text) as (ws1 & E1 & H1). set (l1 := skip_spaces text) in *. 
    set (l2 := match l1 with c :: l' => if Ascii.eqb c "+" then l' else l1 | [] => [] end).
    assert (E2 : exists sign, l1 = sign ++ l2 /\ (sign = [] \/ sign = ["+"%char])).
    { unfold l2. destruct l1 as [|c l']; [exists []; auto|]. destruct (Ascii.eqb_spec c "+") as [->|]; [exists ["+"%char]; auto|exists []; auto]. }
    destruct E2 as (sign & E2 & Hs). destruct (starts_with_digit l2) eqn:Ed; [|done]. destruct (take_digits l2 0) as [n' rest] eqn:Et. destruct (N.leb_spec (2 ^ 64) n'); [done|]. destruct (skip_spec rest) as (ws2 & E3 & H3).
    destruct (skip_spaces rest); [|done]. rewrite app_nil_r in E3. subst ws2. intros [= <-]. split; [|done].
    destruct l2 as [|c l3]; [done|]. simpl in Ed. destruct (digit c) as [d|] eqn:Ec; [|done]. cbn [take_digits] in Et. rewrite Ec in Et. change (0 * 10 + d)%N with d in Et. apply digit_spec in Ec as [Hc Hd].
    destruct (take_digits_spec l3 d [c] (decimal_one _ _ Hc Hd) _ _ Et) as (ds & -> & Hdec). exists ws1, sign, (c :: ds), rest. split; [by rewrite E1, E2|]. done.
  - intros ((ws1 & sign & ds & ws2 & E & H1 & H2 & Hs & Hd) & Hn). rewrite E.
    assert (Hm : existsb (Ascii.eqb "-") (ws1 ++ sign ++ ds ++ ws2) = false).
    { apply no_minus. rewrite !elem_of_app. intros [Hin|[Hin|[Hin|Hin]]].
      - apply H1 in Hin. apply is_space_spec in Hin. done.
      - destruct Hs as [-> | ->]; [by apply elem_of_nil in Hin|]. by apply elem_of_list_singleton in Hin.
      - clear -Hd Hin. induction Hd as [c d Hc Hlt|l n c d H IH Hc Hlt]; [apply elem_of_list_singleton in Hin as <-|apply elem_of_app in Hin as [Hin| <-%elem_of_list_singleton]; [by apply IH|]];
          (destruct (digit_not_space "-"%char) as (_ & _ & K); [exists d; by apply digit_spec|done]).
      - apply H2 in Hin. apply is_space_spec in Hin. done. }
    rewrite Hm, skip_app by done. destruct (decimal_nonempty _ _ Hd) as (c & d & ds' & Eds & Ec). destruct (digit_not_space c ltac:(by eexists)) as (Hc1 & Hc2 & _).
    assert (Hl : skip_spaces (sign ++ ds ++ ws2) = sign ++ ds ++ ws2). { destruct Hs as [-> | ->]; [|done]. rewrite Eds. cbn [app skip_spaces]. by rewrite Hc1. }
    rewrite Hl.
    assert (Hl2 : (match sign ++ ds ++ ws2 with c0 :: l' => if Ascii.eqb c0 "+" then l' else sign ++ ds ++ ws2 | [] => [] end) = ds ++ ws2).
    { destruct Hs as [-> | ->]; [|done]. rewrite Eds. cbn [app]. by rewrite Hc2. }
    rewrite Hl2. assert (starts_with_digit (ds ++ ws2) = true) as ->. { rewrite Eds. simpl. by rewrite Ec. }
    rewrite (take_digits_decimal ds n ws2 Hd).
    2:{ destruct ws2 as [|w ws2]; [done|]. destruct (digit w) eqn:Ew; [|done]. destruct (digit_not_space w) as (K & _); [by eexists|]. rewrite (proj2 (is_space_spec w)) in K; [done|]. apply H2. left. }
    destruct (N.leb_spec (2 ^ 64) n); [lia|]. replace ws2 with (ws2 ++ []) by apply app_nil_r. by rewrite skip_app.
Qed.
Print Assumptions C71_number.

(** ** Cases *)
Definition text (s : string) : ptree := PTree s [].
Example number_ex : map parse_number (map text ["0"; " +0042 "; "18446744073709551615"; "18446744073709551616"; "-1"; "4 2"; ""; "+"; "0x10"; "1e3"]) =
  [Some 0; Some 42; Some 18446744073709551615; None; None; None; None; None; None; None]%N.
Proof. vm_compute. reflexivity. Qed.
(** a counter of the times a section was processed; a section "log" with the text "bad" is an error *)
Definition ex_handler : @handler nat := fun t dry s => if String.eqb (pt_value t) "bad" then Throws s else Done (if dry then s else S s).
Definition ex_subscribed (k : string) : option handler := if String.eqb k "tables" then Some ex_handler else None.
Definition ex_ignored (k : string) : bool := String.eqb k "rib" || String.eqb k "log".
Definition ex_file : ptree := PTree "" [("tables", text ""); ("rib", text ""); ("tables", text "")].
Definition ex_wrong : ptree := PTree "" [("tables", text ""); ("tables", text "bad"); ("tables", text "")].
Example process_ex :
  configure ex_subscribed ex_ignored ex_file 0 = Done 2%nat /\ configure ex_subscribed ex_ignored ex_wrong 0 = Throws 0%nat /\
  process ex_subscribed ex_ignored false ex_wrong 0 = Throws 1%nat /\ process ex_subscribed ex_ignored false (PTree "" [("tables", text ""); ("other", text "")]) 0 = Throws 1%nat.
Proof. vm_compute. repeat split. Qed.
Example ex_safe k h : ex_subscribed k = Some h -> dry_safe h /\ in_range h.
Proof.
  unfold ex_subscribed. destruct (String.eqb k "tables"); [|done]. intros [= <-]. split; [intros t s|intros t dry s s']; unfold ex_handler; by destruct (String.eqb (pt_value t) "bad").
Qed.
(** C71: an error of a handler that is a std::out_of_range is taken for a missing handler: where sections without one are
    left out, it goes unnoticed *)
Theorem C71_range_refuted :
  exists (h : @handler nat) subscribed ignored t s s', subscribed "tables" = Some h /\ pt_children t = [("tables", text "")] /\
    h (text "") false s = OutOfRange s' /\ process subscribed ignored false t s = Done s'.
Proof.
  exists (fun _ _ s => OutOfRange (S s)), (fun k => if String.eqb k "tables" then Some (fun _ _ s => OutOfRange (S s)) else None), (fun _ => true), (PTree "" [("tables", text "")]), 0%nat, 1%nat. done.
Qed.
Print Assumptions C71_range_refuted.
