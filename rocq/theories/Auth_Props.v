(** C70: who may send which command. *)
From Coq Require Import String Ascii.
From stdpp Require Import gmap strings.
From Verif Require Import Lib Cfg_Model Auth_Model Auth_Spec.
Open Scope string_scope.
Open Scope list_scope.

Section Props.
Context {cert command : Type} (load : string -> option cert) (check : list cert -> command -> verdict).
Notation auth := (gmap string (option (@validator cert))).

(** ** The grants made so far *)
Definition holds (A : auth) (G : string -> option cert -> Prop) : Prop :=
  forall m, match A !! m with
       | None => True
       | Some None => False
       | Some (Some AcceptAll) => G m None
       | Some (Some (Anchors l)) => ~ G m None /\ forall c, c ∈ l <-> G m (Some c)
       end.
Definition same_dom (A A' : auth) : Prop := forall m, is_Some (A !! m) <-> is_Some (A' !! m).
Definition plus (G H : string -> option cert -> Prop) m c : Prop := G m c \/ H m c.
Lemma holds_ext A G H : (forall m c, G m c <-> H m c) -> holds A G -> holds A H.
Proof. intros E K m. specialize (K m). destruct (A !! m) as [[[|l]|]|]; [by apply E|..|done|done]. destruct K as [K1 K2]. split; [by rewrite <-E|]. intros c. by rewrite <-E. Qed.
Lemma reset_holds A : holds (reset A) (fun _ _ => False).
Proof. intros m. unfold reset. rewrite lookup_fmap. destruct (A !! m); simpl; [|done]. split; [tauto|]. intros c. by rewrite elem_of_nil. Qed.
Lemma reset_dom A : same_dom A (reset A).
Proof. intros m. unfold reset. rewrite lookup_fmap. by rewrite fmap_is_Some. Qed.
Lemma grant_holds c m A G : holds A G -> is_Some (A !! m) -> exists A', grant c m A = Some A' /\ same_dom A A' /\ holds A' (plus G (fun m' c' => m' = m /\ c' = c)).
Proof.
  intros H [v Hv]. unfold grant. destruct c as [c|].
  - pose proof (H m) as Hm. rewrite Hv in *. destruct v as [[|l]|]; [..|done].
    + exists A. split; [done|]. split; [done|]. intros m'. specialize (H m'). destruct (A !! m') as [[[|l]|]|] eqn:E; [by left|..|done|done]. destruct H as [H1 H2]. split; [intros [K|[_ K]]; done|].
      intros c'. rewrite H2. split; [by left|]. intros [K|[-> _]]; [done|congruence].
    + eexists. split; [done|]. split.
      * intros m'. destruct (decide (m = m')) as [<-|Hn]; [rewrite lookup_insert, Hv; split; eauto|by rewrite lookup_insert_ne].
      * intros m'. destruct (decide (m = m')) as [<-|Hn].
        -- rewrite lookup_insert. destruct Hm as [H1 H2]. split; [intros [K|[_ K]]; done|]. intros c'. rewrite elem_of_app, elem_of_list_singleton, H2. unfold plus. split; [intros [K| ->]; auto|intros [K|[_ [= ->]]]; auto].
        -- rewrite lookup_insert_ne by done. specialize (H m'). destruct (A !! m') as [[[|l']|]|]; [by left|..|done|done]. destruct H as [H1 H2]. split; [intros [K|[_ K]]; done|]. intros c'. rewrite H2. split; [by left|]. intros [K|[-> _]]; done.
  - eexists. split; [done|]. split.
    + intros m'. destruct (decide (m = m')) as [<-|Hn]; [rewrite lookup_insert, Hv; split; eauto|by rewrite lookup_insert_ne].
    + intros m'. destruct (decide (m = m')) as [<-|Hn]; [rewrite lookup_insert; by right|]. rewrite lookup_insert_ne by done. specialize (H m'). destruct (A !! m') as [[[|l']|]|]; [by left|..|done|done]. destruct H as [H1 H2].
      split; [intros [K|[-> _]]; done|]. intros c'. rewrite H2. split; [by left|]. intros [K|[-> _]]; done.
Qed.
Definition listed (l : list (string * ptree)) (c : option cert) m (c' : option cert) : Prop := c' = c /\ exists x, (m, x) ∈ l.
Lemma same_dom_trans A B C : same_dom A B -> same_dom B C -> same_dom A C.
Proof. intros H K m. etransitivity; [apply H|apply K]. Qed.
Lemma grant_all_holds c l A G : holds A G ->
  exists A' ok G', grant_all false c l A = Some (A', ok) /\ same_dom A A' /\ holds A' G' /\
    (forall m c', G m c' -> G' m c') /\ (forall m c', G' m c' -> plus G (listed l c) m c') /\
    (ok = true <-> forall m x, (m, x) ∈ l -> is_Some (A !! m)) /\ (ok = true -> forall m c', plus G (listed l c) m c' -> G' m c').
Proof.
  revert A G. induction l as [|[m x] l IH]; intros A G H; cbn [grant_all].
  - exists A, true, G. split; [done|]. split; [done|]. split; [done|]. split; [done|]. split; [by left|]. split; [split; [by intros _ m x ?%elem_of_nil|done]|]. intros _ m c' [K|[_ [x K]]]; [done|by apply elem_of_nil in K].
  - destruct (A !! m) as [v|] eqn:Hm.
    + destruct (grant_holds c m A G H) as (A1 & E & D & H1); [by eexists|]. rewrite E. destruct (IH A1 _ H1) as (A' & ok & G' & E' & D' & H' & K1 & K2 & K3 & K4). exists A', ok, G'. split; [done|]. split; [by eapply same_dom_trans|]. split; [done|].
      split; [intros m' c' K; apply K1; by left|]. split; [|split].
      * intros m' c' K. apply K2 in K as [[K|[-> ->]]|[-> [y K]]]; [by left|right|right]; (split; [done|]); [exists x; left|exists y; by right].
      * rewrite K3. split.
        -- intros K m' y [[= -> ->]|Hy]%elem_of_cons; [by eexists|]. apply D. by eapply K.
        -- intros K m' y Hy. apply D. apply (K m' y). by right.
      * intros Hok m' c' K. apply K4; [done|]. destruct K as [K|[-> [y [[= -> ->]|Hy]%elem_of_cons]]]; [left; by left|left; by right|right]. split; [done|]. by exists y.
    + exists A, false, G. split; [done|]. split; [done|]. split; [done|]. split; [done|]. split; [by left|]. split; [|done]. split; [done|]. intros K. specialize (K m x ltac:(left)). rewrite Hm in K. by destruct K.
Qed.
Lemma grant_all_dry (c : option cert) l (A : auth) : exists ok, grant_all true c l A = Some (A, ok) /\ (ok = true <-> forall m x, (m, x) ∈ l -> is_Some (A !! m)).
Proof.
  induction l as [|[m x] l IH]; cbn [grant_all]; [exists true; split; [done|]; split; [by intros _ m x ?%elem_of_nil|done]|]. destruct (A !! m) as [v|] eqn:Hm.
  - destruct IH as (ok & E & K). exists ok. split; [done|]. rewrite K. split; [intros K' m' y [[= -> ->]|Hy]%elem_of_cons; [by eexists|by eapply K']|]. intros K' m' y Hy. apply (K' m' y). by right.
  - exists false. split; [done|]. split; [done|]. intros K. specialize (K m x ltac:(left)). rewrite Hm in K. by destruct K.
Qed.

(** ** Sections *)
Definition gives_of (l : list (string * ptree)) m c : Prop := exists a, ("authorize", a) ∈ l /\ is_for load a c /\ lists a m.
Definition fine_of (known : string -> Prop) (l : list (string * ptree)) : Prop :=
  forall k a, (k, a) ∈ l -> k = "authorize" /\ (exists c, is_for load a c) /\ (exists p, pt_child "privileges" a = Some p) /\ forall m, lists a m -> known m.
(** what a section is about *)
Definition cert_of (a : ptree) : option (option cert) :=
  match pt_child "certfile" a with
  | None => None
  | Some f => if String.eqb (pt_value f) "any" then Some None else match load (pt_value f) with Some c => Some (Some c) | None => None end
  end.
Lemma cert_of_spec a c : cert_of a = Some c <-> is_for load a c.
Proof.
  unfold cert_of, is_for. destruct (pt_child "certfile" a) as [f|]; [|split; [done|by intros (f & ? & _)]]. destruct (String.eqb_spec (pt_value f) "any") as [E|E].
  - split; [intros [= <-]; by exists f|]. intros (f' & [= <-] & K). destruct c as [c|]; [by destruct K|done].
  - destruct (load (pt_value f)) as [c0|] eqn:El.
    + split; [intros [= <-]; by exists f|]. intros (f' & [= <-] & K). destruct c as [c|]; [|done]. destruct K as [_ K]. congruence.
    + split; [done|]. intros (f' & [= <-] & K). destruct c as [c|]; [|done]. destruct K as [_ K]. congruence.
Qed.
Lemma authorize_all_cons dry k t l (A : auth) :
  authorize_all load dry ((k, t) :: l) A =
  if negb (String.eqb k "authorize") then Some (A, false)
  else match cert_of t, pt_child "privileges" t with
       | Some c, Some p => match grant_all dry c (pt_children p) A with Some (A', true) => authorize_all load dry l A' | r => r end
       | _, _ => Some (A, false)
       end.
Proof. cbn [authorize_all]. unfold cert_of. destruct (negb _); [done|]. by destruct (pt_child "certfile" t). Qed.
Lemma authorize_all_holds l A G : holds A G ->
  exists A' ok G', authorize_all load false l A = Some (A', ok) /\ same_dom A A' /\ holds A' G' /\
    (forall m c, G m c -> G' m c) /\ (forall m c, G' m c -> plus G (gives_of l) m c) /\
    (ok = true <-> fine_of (fun m => is_Some (A !! m)) l) /\ (ok = true -> forall m c, plus G (gives_of l) m c -> G' m c).
Proof.
  revert A G. induction l as [|[k a] l IH]; intros A G H.
  - exists A, true, G. split; [done|]. split; [done|]. split; [done|]. split; [done|]. split; [by left|]. split; [split; [by intros _ k a ?%elem_of_nil|done]|]. intros _ m c [K|(a & K & _)]; [done|by apply elem_of_nil in K].
  - rewrite authorize_all_cons.
    assert (Hbad : ~ fine_of (fun m => is_Some (A !! m)) ((k, a) :: l) -> exists A' ok G', Some (A, false) = Some (A', ok) /\ same_dom A A' /\ holds A' G' /\
              (forall m c, G m c -> G' m c) /\ (forall m c, G' m c -> plus G (gives_of ((k, a) :: l)) m c) /\
              (ok = true <-> fine_of (fun m => is_Some (A !! m)) ((k, a) :: l)) /\ (ok = true -> forall m c, plus G (gives_of ((k, a) :: l)) m c -> G' m c)).
    { intros Hn. exists A, false, G. split; [done|]. split; [done|]. split; [done|]. split; [done|]. split; [by left|]. done. }
    destruct (String.eqb_spec k "authorize") as [->|Hk]; cbn [negb].
    2:{ apply Hbad. intros K. destruct (K k a) as [? _]; [left|done]. }
    destruct (cert_of a) as [c|] eqn:Ec.
    2:{ apply Hbad. intros K. destruct (K _ a ltac:(left)) as (_ & [c Hc] & _). apply cert_of_spec in Hc. congruence. }
    destruct (pt_child "privileges" a) as [p|] eqn:Ep.
    2:{ apply Hbad. intros K. destruct (K _ a ltac:(left)) as (_ & _ & [p Hp] & _). congruence. }
    assert (Hl : forall m, lists a m <-> exists x, (m, x) ∈ pt_children p). { intros m. unfold lists. rewrite Ep. split; [intros (p' & x & [= <-] & K); by exists x|intros [x K]; by exists p, x]. }
    assert (Hg : forall m c', listed (pt_children p) c m c' <-> is_for load a c' /\ lists a m).
    { intros m c'. unfold listed. rewrite Hl, <-cert_of_spec, Ec. split; [intros [-> K]; done|intros [[= ->] K]; done]. }
    destruct (grant_all_holds c (pt_children p) A G H) as (A1 & ok1 & G1 & -> & D1 & H1 & K1 & K2 & K3 & K4). destruct ok1.
    + destruct (IH A1 G1 H1) as (A' & ok & G' & -> & D' & H' & L1 & L2 & L3 & L4). exists A', ok, G'. split; [done|]. split; [by eapply same_dom_trans|]. split; [done|]. split; [auto|]. split; [|split].
      * intros m c' K. apply L2 in K as [K|(a' & Ha & K)]; [|right; exists a'; split; [by right|done]]. apply K2 in K as [K|K]; [by left|]. apply Hg in K. right. exists a. split; [left|done].
      * rewrite L3. split.
        -- intros K k' a' [[= -> ->]|Hin]%elem_of_cons.
           ++ split; [done|]. split; [exists c; by apply cert_of_spec|]. split; [by eexists|]. intros m Hm. apply Hl in Hm as [x Hx]. by eapply K3.
           ++ destruct (K _ _ Hin) as (? & ? & ? & Hm). split; [done|]. split; [done|]. split; [done|]. intros m Hl'. apply D1. by apply Hm.
        -- intros K k' a' Hin. destruct (K k' a') as (? & ? & ? & Hm); [by right|]. split; [done|]. split; [done|]. split; [done|]. intros m Hl'. apply D1. by apply Hm.
      * intros Hok m c' K. apply L4; [done|]. destruct K as [K|(a' & [[= ->]|Hin]%elem_of_cons & Hf & Hm)].
        -- left. by apply K1.
        -- left. apply K4; [done|]. right. by apply Hg.
        -- right. by exists a'.
    + exists A1, false, G1. split; [done|]. split; [done|]. split; [done|]. split; [done|]. split; [|split].
      * intros m c' K. apply K2 in K as [K|K]; [by left|]. apply Hg in K. right. exists a. split; [left|done].
      * split; [done|]. intros K. apply K3. intros m x Hx. destruct (K _ a ltac:(left)) as (_ & _ & _ & Hm). apply Hm, Hl. by exists x.
      * done.
Qed.
Lemma authorize_all_dry l (A : auth) : exists ok, authorize_all load true l A = Some (A, ok) /\ (ok = true <-> fine_of (fun m => is_Some (A !! m)) l).
Proof.
  induction l as [|[k a] l IH]; [exists true; split; [done|]; split; [by intros _ k a ?%elem_of_nil|done]|]. rewrite authorize_all_cons.
  assert (Hbad : ~ fine_of (fun m => is_Some (A !! m)) ((k, a) :: l) -> exists ok, Some (A, false) = Some (A, ok) /\ (ok = true <-> fine_of (fun m => is_Some (A !! m)) ((k, a) :: l))) by (intros Hn; by exists false).
  destruct (String.eqb_spec k "authorize") as [->|Hk]; cbn [negb].
  2:{ apply Hbad. intros K. destruct (K k a) as [? _]; [left|done]. }
  destruct (cert_of a) as [c|] eqn:Ec.
  2:{ apply Hbad. intros K. destruct (K _ a ltac:(left)) as (_ & [c Hc] & _). apply cert_of_spec in Hc. congruence. }
  destruct (pt_child "privileges" a) as [p|] eqn:Ep.
  2:{ apply Hbad. intros K. destruct (K _ a ltac:(left)) as (_ & _ & [p Hp] & _). congruence. }
  assert (Hl : forall m, lists a m <-> exists x, (m, x) ∈ pt_children p). { intros m. unfold lists. rewrite Ep. split; [intros (p' & x & [= <-] & K); by exists x|intros [x K]; by exists p, x]. }
  destruct (grant_all_dry c (pt_children p) A) as (ok1 & -> & K3). destruct ok1.
  - destruct IH as (ok & -> & L). exists ok. split; [done|]. rewrite L. split.
    + intros K k' a' [[= -> ->]|Hin]%elem_of_cons; [|by apply K]. split; [done|]. split; [exists c; by apply cert_of_spec|]. split; [by eexists|]. intros m Hm. apply Hl in Hm as [x Hx]. by eapply K3.
    + intros K k' a' Hin. apply K. by right.
  - exists false. split; [done|]. split; [done|]. intros K. apply K3. intros m x Hx. destruct (K _ a ltac:(left)) as (_ & _ & _ & Hm). apply Hm, Hl. by exists x.
Qed.

(** C70: a configuration is processed without error if and only if it is correct, be it in force or as a dry run, and
    whatever was granted before *)
Theorem C70_correct dry t (A : auth) :
  exists A' ok, auth_config load dry t A = Some (A', ok) /\ (ok = true <-> correct load (fun m => is_Some (A !! m)) t) /\ (dry = true -> A' = A) /\
    forall m, is_Some (A !! m) <-> is_Some (A' !! m).
Proof.
  unfold auth_config, correct. destruct (pt_children t) as [|x l] eqn:E.
  - exists (if dry then A else reset A), false. split; [done|]. split; [split; [done|by intros [? _]]|]. split; [by intros ->|]. destruct dry; [done|apply reset_dom].
  - rewrite <-E. destruct dry.
    + destruct (authorize_all_dry (pt_children t) A) as (ok & -> & K). exists A, ok. split; [done|]. split; [|done]. rewrite K. split; [intros ?; split; [by rewrite E|done]|by intros [_ ?]].
    + destruct (authorize_all_holds (pt_children t) (reset A) _ (reset_holds A)) as (A' & ok & G' & -> & D & _ & _ & _ & K & _). exists A', ok. split; [done|]. split; [|split; [done|]].
      * rewrite K. split.
        -- intros K'. split; [by rewrite E|]. intros k a Hin. destruct (K' k a Hin) as (? & ? & ? & Hm). split; [done|]. split; [done|]. split; [done|]. intros m Hl. apply (reset_dom A m). by apply Hm.
        -- intros [_ K'] k a Hin. destruct (K' k a Hin) as (? & ? & ? & Hm). split; [done|]. split; [done|]. split; [done|]. intros m Hl. apply (proj1 (reset_dom A m)). by apply Hm.
      * eapply same_dom_trans; [apply reset_dom|done].
Qed.
(** C70: once it is in force, a module is open to anyone if the configuration says so, and otherwise to exactly the
    certificates it is granted to; nothing is left of what was granted before *)
Theorem C70_config t (A A' : auth) :
  auth_config load false t A = Some (A', true) ->
  forall m, is_Some (A !! m) ->
    (gives load t m None /\ A' !! m = Some (Some AcceptAll)) \/
    (~ gives load t m None /\ exists l, A' !! m = Some (Some (Anchors l)) /\ forall c, c ∈ l <-> gives load t m (Some c)).
Proof.
  unfold auth_config. destruct (pt_children t) as [|x l] eqn:E; [done|]. rewrite <-E. intros H m Hm.
  destruct (authorize_all_holds (pt_children t) (reset A) _ (reset_holds A)) as (A1 & ok & G' & E' & D & Hh & _ & K1 & _ & K2). rewrite E' in H. injection H as -> ->. apply (reset_dom A m), D in Hm as [v Hv].
  specialize (Hh m). rewrite Hv in *.
  assert (HG : forall c, G' m c <-> gives load t m c). { intros c. split; [intros K; apply K1 in K as [K|K]; done|]. intros K. apply K2; [done|]. by right. }
  destruct v as [[|l']|]; [left; split; [by apply HG|done]|right|done]. destruct Hh as [Hh1 Hh2]. split; [by rewrite <-HG|]. exists l'. split; [done|]. intros c. by rewrite Hh2, HG.
Qed.
(** C70: when the configuration is not correct, no one has got more than it grants *)
Theorem C70_failed t (A A' : auth) ok :
  auth_config load false t A = Some (A', ok) ->
  forall m, match A' !! m with
       | Some (Some AcceptAll) => gives load t m None
       | Some (Some (Anchors l)) => forall c, c ∈ l -> gives load t m (Some c)
       | Some None => False
       | None => A !! m = None
       end.
Proof.
  unfold auth_config. destruct (pt_children t) as [|x l] eqn:E.
  - intros [= <- <-] m. unfold reset. rewrite lookup_fmap. destruct (A !! m); simpl; [|done]. by intros c ?%elem_of_nil.
  - rewrite <-E. intros H m. destruct (authorize_all_holds (pt_children t) (reset A) _ (reset_holds A)) as (A1 & ok1 & G' & E' & D & Hh & _ & K1 & _). rewrite E' in H. injection H as -> ->.
    specialize (Hh m). destruct (A' !! m) as [[[|l']|]|] eqn:Em; [..|done|].
    + by apply K1 in Hh as [Hh|Hh].
    + intros c Hc. apply Hh in Hc. by apply K1 in Hc as [Hc|Hc].
    + destruct (A !! m) eqn:EA; [|done]. exfalso. assert (Hs : is_Some (A' !! m)) by (apply D, (proj1 (reset_dom A m)); by eexists). rewrite Em in Hs. by destruct Hs.
Qed.

(** ** Histories *)
Lemma run_from_app l1 l2 (A : auth) : auth_run_from load (l1 ++ l2) A = match auth_run_from load l1 A with Some A' => auth_run_from load l2 A' | None => None end.
Proof. revert A. induction l1 as [|e l1 IH]; intros A; [done|]. cbn [app auth_run_from]. by destruct (auth_step load e A). Qed.
Lemma run_snoc l e : auth_run load (l ++ [e]) = match auth_run load l with Some A => auth_step load e A | None => None end.
Proof. unfold auth_run. rewrite run_from_app. destruct (auth_run_from load l ∅) as [A|]; [|done]. cbn [auth_run_from]. by destruct (auth_step load e A). Qed.
Lemma step_defined e (A : auth) : is_Some (auth_step load e A).
Proof. destruct e as [m|dry t]; [by eexists|]. cbn [auth_step]. destruct (C70_correct dry t A) as (A' & ok & -> & _). by eexists. Qed.
(** C70: no history makes the daemon use a validator that is not there, and the modules are those declared *)
Theorem C70_defined l : exists A, auth_run load l = Some A /\ forall m, is_Some (A !! m) <-> ADeclare m ∈ l.
Proof.
  induction l as [|e l (A & E & K)] using rev_ind; [exists ∅; split; [done|]; intros m; rewrite lookup_empty, elem_of_nil; split; [by intros []|done]|].
  rewrite run_snoc, E. destruct (step_defined e A) as [A' E']. exists A'. split; [done|]. intros m. rewrite elem_of_app, elem_of_list_singleton, <-K. destruct e as [m'|dry t]; cbn [auth_step] in E'.
  - injection E' as <-. unfold declare. destruct (A !! m') eqn:Em.
    + split; [by left|]. intros [?|[= ->]]; [done|by eexists].
    + destruct (decide (m = m')) as [->|Hn]; [rewrite lookup_insert; split; [by right|by eexists]|]. rewrite lookup_insert_ne by done. split; [by left|intros [?|[= ->]]; done].
  - destruct (C70_correct dry t A) as (A1 & ok & E1 & _ & _ & D). rewrite E1 in E'. injection E' as <-. rewrite <-D. split; [by left|by intros [?|?]].
Qed.
Lemma no_config_step e (A A' : auth) m : ~ in_force e -> auth_step load e A = Some A' -> is_Some (A !! m) -> A' !! m = A !! m.
Proof.
  intros He H Hm. destruct e as [m'|[] t]; cbn [auth_step] in H.
  - injection H as <-. unfold declare. destruct (A !! m') eqn:E; [done|]. rewrite lookup_insert_ne; [done|]. intros ->. rewrite E in Hm. by destruct Hm.
  - destruct (C70_correct true t A) as (A1 & ok & E1 & _ & D & _). rewrite E1, (D eq_refl) in H. by injection H as <-.
  - by destruct He.
Qed.
Lemma no_config_from l (A A' : auth) m : (forall e, e ∈ l -> ~ in_force e) -> auth_run_from load l A = Some A' -> is_Some (A !! m) -> A' !! m = A !! m.
Proof.
  revert A. induction l as [|e l IH]; intros A He H Hm; [by injection H as <-|]. cbn [auth_run_from] in H. destruct (auth_step load e A) as [A1|] eqn:E; [|done].
  assert (E1 : A1 !! m = A !! m) by (eapply no_config_step; [apply He; left|done|done]). rewrite <-E1. apply IH; [intros e' He'; apply He; by right|done|by rewrite E1].
Qed.
(** C70: whatever happened before, a command is accepted only if the last configuration that was put in force, be it
    correct or not, grants its module to anyone, or to a certificate whose key signed it *)
Theorem C70_accept (signed : cert -> command -> Prop) l (A : auth) m c s :
  (forall anchors c s, check anchors c = Valid s -> exists a, a ∈ anchors /\ signed a c) ->
  auth_run load l = Some A -> authorize check m c A = Some (Accept s) ->
  exists l1 t l2, l = l1 ++ AConfig false t :: l2 /\ (forall e, e ∈ l2 -> ~ in_force e) /\
    ((gives load t m None /\ s = "*") \/ exists a, gives load t m (Some a) /\ signed a c).
Proof.
  intros Hs Hl Ha.
  assert (K : forall v, A !! m = Some (Some v) -> exists l1 t l2 A0 A1 ok, l = l1 ++ AConfig false t :: l2 /\ (forall e, e ∈ l2 -> ~ in_force e) /\ auth_config load false t A0 = Some (A1, ok) /\ A1 !! m = Some (Some v)).
  { clear Ha. revert A Hl. induction l as [|e l IH] using rev_ind; intros A Hl v Hv; [injection Hl as <-; by rewrite lookup_empty in Hv|]. rewrite run_snoc in Hl. destruct (auth_run load l) as [A0|] eqn:E0; [|done].
    destruct e as [m'|[] t]; cbn [auth_step] in Hl.
    - injection Hl as <-. assert (Hv0 : A0 !! m = Some (Some v)). { unfold declare in Hv. destruct (A0 !! m') eqn:Em; [done|]. destruct (decide (m' = m)) as [->|Hn]; [by rewrite lookup_insert in Hv|by rewrite lookup_insert_ne in Hv]. }
      destruct (IH _ eq_refl _ Hv0) as (l1 & t & l2 & B0 & B1 & ok & -> & H2 & H3 & H4). exists l1, t, (l2 ++ [ADeclare m']), B0, B1, ok. split; [by rewrite <-app_assoc|]. split; [|done]. intros e [He| ->%elem_of_list_singleton]%elem_of_app; [by apply H2|intros []].
    - destruct (C70_correct true t A0) as (A1 & ok & E1 & _ & D & _). rewrite E1, (D eq_refl) in Hl. injection Hl as ->.
      destruct (IH _ eq_refl _ Hv) as (l1 & t' & l2 & B0 & B1 & ok' & -> & H2 & H3 & H4). exists l1, t', (l2 ++ [AConfig true t]), B0, B1, ok'. split; [by rewrite <-app_assoc|]. split; [|done]. intros e [He| ->%elem_of_list_singleton]%elem_of_app; [by apply H2|intros []].
    - destruct (auth_config load false t A0) as [[A1 ok]|] eqn:E1; [|done]. injection Hl as ->. exists l, t, [], A0, A, ok. split; [done|]. split; [by intros e ?%elem_of_nil|]. done. }
  unfold authorize in Ha. destruct (A !! m) as [[v|]|] eqn:Em; [|done|done]. destruct (K v eq_refl) as (l1 & t & l2 & A0 & A1 & ok & -> & H2 & H3 & H4). exists l1, t, l2. split; [done|]. split; [done|].
  pose proof (C70_failed _ _ _ _ H3 m) as Hf. rewrite H4 in Hf. destruct v as [|an]; [left; by injection Ha as <-|right]. destruct (check an c) as [s'| | |] eqn:Ec; try done. apply Hs in Ec as (a & Hin & Hsig). exists a. split; [by apply Hf|done].
Qed.
(** C70: after a correct configuration, a command for a module that was there by then is accepted if the module is open to
    anyone; otherwise the answer follows from its validation with the certificates the module is granted to *)
Theorem C70_answer l1 t l2 (A0 A : auth) m c :
  auth_run load l1 = Some A0 -> auth_run load (l1 ++ AConfig false t :: l2) = Some A -> (forall e, e ∈ l2 -> ~ in_force e) ->
  correct load (fun m => ADeclare m ∈ l1) t -> ADeclare m ∈ l1 ->
  (gives load t m None /\ authorize check m c A = Some (Accept "*")) \/
  (~ gives load t m None /\ exists anchors, (forall a, a ∈ anchors <-> gives load t m (Some a)) /\
     authorize check m c A = Some match check anchors c with Valid s => Accept s | MalformedSignature | InvalidKeyLocator => RejectSilent | OtherError => Reject403 end).
Proof.
  intros E0 E Hl Hc Hm. unfold auth_run in E. rewrite run_from_app in E. unfold auth_run in E0. rewrite E0 in E. cbn [auth_run_from auth_step] in E.
  destruct (C70_defined l1) as (A0' & E0' & D0). unfold auth_run in E0'. rewrite E0 in E0'. injection E0' as <-.
  destruct (C70_correct false t A0) as (A1 & ok & E1 & Hok & _ & D1). rewrite E1 in E. cbn [fmap option_fmap option_map fst] in E.
  assert (ok = true) as ->. { apply Hok. destruct Hc as [Hc1 Hc2]. split; [done|]. intros k a Hin. destruct (Hc2 k a Hin) as (? & ? & ? & Hm'). split; [done|]. split; [done|]. split; [done|]. intros m' Hl'. apply D0. by apply Hm'. }
  assert (HA : A !! m = A1 !! m). { eapply no_config_from; [exact Hl|exact E|]. apply D1. by apply D0. }
  unfold authorize. rewrite HA. destruct (C70_config _ _ _ E1 m) as [[K1 ->]|[K1 (an & -> & K2)]]; [by apply D0|left; by split|right]. split; [done|]. by exists an.
Qed.
(** C70: commands for a module that was declared only after the last configuration are refused *)
Theorem C70_late l1 l2 (A : auth) m c :
  auth_run load (l1 ++ l2) = Some A -> ADeclare m ∉ l1 -> ADeclare m ∈ l2 -> (forall e, e ∈ l2 -> ~ in_force e) ->
  authorize check m c A = Some Reject403.
Proof.
  intros E Hm1 Hm2 Hl. unfold auth_run in E. rewrite run_from_app in E. destruct (C70_defined l1) as (A0 & E0 & D0). unfold auth_run in E0. rewrite E0 in E.
  apply elem_of_list_split in Hm2 as (la & lb & ->). revert A0 E0 D0 E. 
  assert (K : forall A0, A0 !! m = None \/ A0 !! m = Some None -> auth_run_from load (la ++ ADeclare m :: lb) A0 = Some A -> A !! m = Some None).
  { induction la as [|e la IH]; intros A0 HA0 E.
    - cbn [app auth_run_from auth_step] in E. assert (H0 : declare m A0 !! m = Some None). { unfold declare. destruct (A0 !! m) eqn:E0; [by destruct HA0; congruence|apply lookup_insert]. }
      rewrite <-H0. eapply no_config_from; [|exact E|by rewrite H0]. intros e He. apply Hl. by right.
    - cbn [app auth_run_from] in E. destruct (auth_step load e A0) as [A1|] eqn:E1; [|done]. apply (IH ltac:(intros e' He'; apply Hl; by right) A1); [|done].
      destruct e as [m'|[] t]; cbn [auth_step] in E1.
      + injection E1 as <-. unfold declare. destruct (A0 !! m') eqn:Em; [done|]. destruct (decide (m' = m)) as [->|Hn]; [right; apply lookup_insert|by rewrite lookup_insert_ne].
      + destruct (C70_correct true t A0) as (A2 & ok & E2 & _ & D & _). rewrite E2, (D eq_refl) in E1. by injection E1 as <-.
      + by destruct (Hl (AConfig false t) ltac:(left)). }
  intros A0 E0 D0 E. unfold authorize. rewrite (K A0); [done| |done]. left. destruct (A0 !! m) eqn:Em; [|done]. exfalso. apply Hm1, D0. by eexists.
Qed.
End Props.
Print Assumptions C70_correct.
Print Assumptions C70_config.
Print Assumptions C70_failed.
Print Assumptions C70_defined.
Print Assumptions C70_accept.
Print Assumptions C70_answer.
Print Assumptions C70_late.

(** ** Cases: certificates are numbers, and so are the files; a command is signed with the key of one certificate *)
Definition leaf (s : string) : ptree := PTree s [].
Definition authorize_section (f : string) (ms : list string) : string * ptree :=
  ("authorize", PTree "" [("certfile", leaf f); ("privileges", PTree "" (map (fun m => (m, leaf "")) ms))]).
Definition ex_load (f : string) : option nat := if String.eqb f "a.ndncert" then Some 1%nat else if String.eqb f "b.ndncert" then Some 2%nat else None.
Definition ex_check (anchors : list nat) (c : nat) : verdict := if existsb (Nat.eqb c) anchors then Valid "/key" else if Nat.eqb c 0 then MalformedSignature else OtherError.
Definition ex_conf : ptree := PTree "" [authorize_section "any" ["fib"]; authorize_section "a.ndncert" ["faces"; "fib"]; authorize_section "b.ndncert" ["faces"]].
Definition ex_bad : ptree := PTree "" [authorize_section "b.ndncert" ["fib"]; authorize_section "missing" ["faces"]].
Definition ex_modules : list aevent := [ADeclare "fib"; ADeclare "faces"; ADeclare "rib"].
Definition ex_answers (l : list aevent) (q : list (string * nat)) : list (option answer) :=
  match auth_run ex_load l with Some A => map (fun x => authorize ex_check (fst x) (snd x) A) q | None => [] end.
Example auth_ex :
  ex_answers ex_modules [("fib", 1%nat); ("cs", 1%nat)] = [Some Reject403; None] /\
  ex_answers (ex_modules ++ [AConfig false ex_conf; ADeclare "cs"; AConfig true ex_bad]) [("fib", 7%nat); ("faces", 1%nat); ("faces", 2%nat); ("faces", 3%nat); ("faces", 0%nat); ("rib", 1%nat); ("cs", 1%nat)]
  = [Some (Accept "*"); Some (Accept "/key"); Some (Accept "/key"); Some Reject403; Some RejectSilent; Some Reject403; Some Reject403].
Proof. vm_compute. repeat split. Qed.
Example correct_ex : correct ex_load (fun m => ADeclare m ∈ ex_modules) ex_conf /\ gives ex_load ex_conf "fib" None /\ gives ex_load ex_conf "faces" (Some 2%nat) /\ ~ gives ex_load ex_conf "faces" None.
Proof.
  destruct (C70_defined ex_load ex_modules) as (A & E & D). destruct (C70_correct ex_load false ex_conf A) as (A' & ok & E' & K & _).
  assert (option_map (fun A => option_map snd (auth_config ex_load false ex_conf A)) (auth_run ex_load ex_modules) = Some (Some true)) as Hok by (vm_compute; reflexivity).
  rewrite E in Hok. cbn [option_map] in Hok. rewrite E' in Hok. injection Hok as ->. destruct (proj1 K eq_refl) as [K1 K2]. split; [split; [done|]; intros k a Hin; destruct (K2 k a Hin) as (? & ? & ? & Hm); do 3 (split; [done|]); intros m Hl; by apply D, Hm|].
  split; [|split].
  - eexists. split; [left|]. split; [exists (leaf "any"); done|]. eexists _, _. split; [done|]. left.
  - eexists. split; [right; right; left|]. split; [exists (leaf "b.ndncert"); done|]. eexists _, _. split; [done|]. left.
  - intros (a & Hin & (f & Hf & Hv) & (p & x & Hp & Hx)). apply elem_of_list_In in Hin. destruct Hin as [[= <-]|[[= <-]|[[= <-]|[]]]]; simpl in Hf, Hp; injection Hf as <-; injection Hp as <-; try discriminate Hv. apply elem_of_list_In in Hx. destruct Hx as [[=]|[]].
Qed.
(** C70: a configuration with an error is not processed all or nothing: when it is put in force, what was granted before is
    lost, and what it grants before the error is granted *)
Theorem C70_atomic_refuted :
  exists l t m m' c, let after := l ++ [AConfig false t] in
    ~ correct ex_load (fun m => ADeclare m ∈ l) t /\
    ex_answers l [(m, c); (m', c)] = [Some (Accept "/key"); Some (Accept "*")] /\ ex_answers after [(m, c); (m', c)] = [Some Reject403; Some Reject403] /\
    ex_answers after [(m', 2%nat)] = [Some (Accept "/key")].
Proof.
  exists (ex_modules ++ [AConfig false ex_conf]), ex_bad, "faces", "fib", 1%nat. cbv zeta. split; [|vm_compute; repeat split].
  intros [_ K]. destruct (K "authorize" (snd (authorize_section "missing" ["faces"]))) as (_ & (c & f & Hf & Hc) & _); [right; left|]. injection Hf as <-. destruct c; [by destruct Hc as [_ Hc]|done].
Qed.
Print Assumptions C70_atomic_refuted.
