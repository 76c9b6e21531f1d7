(** C82: automatic registration of prefixes. *)
From Coq Require Import String.
From stdpp Require Import list.
From Verif Require Import Lib Net_Model Net_Spec Net_Props Ag_Model Ag_Spec.
Open Scope list_scope.
Set Default Proof Using "Type".

Section autoreg.
Context {Name : Type}.
Implicit Types (o : options Name) (f : face).
Lemma listed_within l a : listed l a = true <-> within l a.
Proof. unfold listed, within. rewrite existsb_exists. split; intros (n & H & E); exists n; (split; [by apply elem_of_list_In|done]). Qed.
Lemma scheme_in s : has_allowed_scheme s = true <-> s ∈ ["udp4"; "tcp4"; "udp6"; "tcp6"]%string.
Proof. unfold has_allowed_scheme. rewrite !orb_true_iff, !String.eqb_eq, !elem_of_cons, elem_of_nil. tauto. Qed.
Lemma multicast_spec a : addr_wf a -> is_multicast a = false <-> match a with V4 b0 _ _ _ => ~ (224 <= b0 < 240)%N | V6 l _ => head l <> Some 255%N end.
Proof.
  destruct a as [b0 b1 b2 b3|l sc]; cbn; intros H.
  - rewrite N.eqb_neq. split; intros X; [intros Y; apply X; symmetry; apply (N.div_unique _ 16 14 (b0 - 224)); lia|].
    intros Y. apply X. pose proof (N.div_mod b0 16). pose proof (N.mod_lt b0 16). rewrite Y in *. lia.
  - destruct l as [|b l]; [split; done|]. cbn. rewrite N.eqb_neq. split; [congruence|]. intros X Y. by subst.
Qed.
Lemma below8 i : (i < 8 -> i = 0 \/ i = 1 \/ i = 2 \/ i = 3 \/ i = 4 \/ i = 5 \/ i = 6 \/ i = 7)%N.
Proof. lia. Qed.
Lemma byte_ones b : (b < 256)%N -> (forall i, (i < 8)%N -> N.testbit b i = true) -> b = 255%N.
Proof.
  intros Hb H. change 255%N with (N.ones 8). rewrite <- (N.mod_small b 256 Hb). change 256%N with (2 ^ 8)%N. rewrite <- N.land_ones. apply N.bits_inj. intros i. rewrite N.land_spec.
  destruct (N.lt_ge_cases i 8) as [Hi|Hi]; [by rewrite N.ones_spec_low, H by done|]. rewrite N.ones_spec_high by done. apply andb_false_r.
Qed.
Lemma whole a : addr_wf a -> is_multicast a = false -> within [max_range_v4; max_range_v6] a.
Proof.
  intros H M. destruct (C58_whole a H) as [H4 H6]. destruct (is_v4 a) eqn:V.
  - exists max_range_v4. split; [apply elem_of_cons; by left|by apply H4].
  - exists max_range_v6. split; [apply elem_of_cons; right; apply elem_of_cons; by left|]. apply H6. split; [done|]. right.
    intros L. unfold is_last in L. rewrite drop_0 in L. destruct a as [|l sc]; [done|]. destruct H as [Hb Hn]. destruct l as [|b l]; [done|].
    cbn in M. apply N.eqb_neq in M. apply M. unfold addr_bits, bits in L. cbn [map concat] in L. apply Forall_app in L as [L _]. apply Forall_cons in Hb as [Hb _].
    unfold byte_bits in L. cbn [map] in L. rewrite !Forall_cons in L. destruct L as (L7 & L6 & L5 & L4 & L3 & L2 & L1 & L0 & _). unfold byte in Hb.
    apply byte_ones; [done|]. intros i Hi. apply below8 in Hi as [->|[->|[->|[->|[->|[->|[->| ->]]]]]]]; done.
Qed.
Lemma register_for_in o id ps r : r ∈ register_for o id ps <-> r_prefix r ∈ ps /\ r_face r = id /\ r_cost r = o_cost o.
Proof.
  unfold register_for. rewrite elem_of_list_fmap. split; [by intros (p & -> & ?)|]. intros (H & <- & E). exists (r_prefix r). split; [|done]. destruct r; cbn in *. by rewrite E.
Qed.
Definition white o : list network := match o_white o with [] => [max_range_v4; max_range_v6] | l => l end.
Lemma prepare_spec o o' : prepare o = Some o' -> o' = Options (o_prefixes o) (o_all_prefixes o) (o_cost o) (white o) (o_black o).
Proof. unfold prepare, white. destruct o as [[|p ps] [|q qs] c [|w ws] bl]; cbn; congruence. Qed.
Lemma if_needed o o' f r : prepare o = Some o' -> face_ok f ->
  r ∈ register_if_needed o' f <-> deserves o f (r_prefix r) /\ r_face r = f_id f /\ r_cost r = o_cost o.
Proof.
  intros P (a & Ea & Hw). assert (W : o_cost o' = o_cost o /\ o_prefixes o' = o_prefixes o /\ o_all_prefixes o' = o_all_prefixes o /\ o_black o' = o_black o /\ o_white o' = white o) by (rewrite (prepare_spec _ _ P); done).
  destruct W as (Wc & Wp & Wa & Wb & Ww). unfold register_if_needed. rewrite Ea. change (default (V4 0 0 0 0) (Some a)) with a.
  assert (U : has_allowed_scheme (f_scheme f) = true /\ is_multicast a = false <-> unicast_ip f a). { unfold unicast_ip. rewrite scheme_in, multicast_spec by done. rewrite Ea. tauto. }
  assert (Uq : forall b, unicast_ip f b -> b = a) by (intros b (_ & E & _); congruence).
  destruct (has_allowed_scheme (f_scheme f)); [|split; [by intros ?%elem_of_nil|]; intros [D _]; exfalso; destruct D as [p b H|p b H]; rewrite (Uq _ H) in H; apply U in H as [? _]; done].
  destruct (is_multicast a) eqn:M; [split; [by intros ?%elem_of_nil|]; intros [D _]; exfalso; destruct D as [p b H|p b H]; rewrite (Uq _ H) in H; apply U in H as [_ ?]; done|].
  assert (Hu : unicast_ip f a) by (apply U; done). clear U. rewrite elem_of_app, register_for_in, Wa, Wc, Wp, Wb, Ww.
  assert (Hwh : listed (white o) a = true <-> o_white o = [] \/ within (o_white o) a). { unfold white. destruct (o_white o) as [|w ws]; rewrite listed_within; [split; [by left|intros _; by apply whole]|]. split; [by right|]. by intros [?|?]. }
  split.
  - intros [(H & Q1 & Q2)|H]; [split; [by apply (d_all _ _ _ a)|done]|]. destruct (f_on_demand f) eqn:D, (listed (o_black o) a) eqn:B, (listed (white o) a) eqn:L; cbn in H; try by apply elem_of_nil in H.
    apply register_for_in in H as (H & Q1 & Q2). split; [|by rewrite Wc in *]. apply (d_on_demand _ _ _ a); [done|done|done| |by apply Hwh]. intros X%listed_within. congruence.
  - intros (D & Q1 & Q2). remember (r_prefix r) as pr eqn:Epr. destruct D as [p b H Hp|p b H Hp Hd Hb Hl]; [by left|]. right. assert (b = a) as -> by (by apply Uq). rewrite Hd. assert (listed (o_black o) a = false) as -> by (destruct (listed (o_black o) a) eqn:X; [apply listed_within in X|]; done).
    assert (listed (white o) a = true) as -> by (apply Hwh; exact Hl). cbn. apply register_for_in. rewrite Wc, <- Epr. done.
Qed.
(** A prefix is registered on a face exactly if the face is reported and is to get the prefix; with the cost of the options. *)
Theorem C82_registers o o' evs r : prepare o = Some o' -> Forall event_ok evs ->
  r ∈ registrations o' evs <-> exists e f, e ∈ evs /\ reported f e /\ deserves o f (r_prefix r) /\ r_face r = f_id f /\ r_cost r = o_cost o.
Proof.
  intros P Hok. unfold registrations. rewrite elem_of_list_In, in_flat_map. setoid_rewrite <- elem_of_list_In. rewrite Forall_forall in Hok. split.
  - intros (e & He & H). exists e. specialize (Hok e He). destruct e as [[] f|l]; cbn in *.
    + destruct (f_local f) eqn:L; cbn in H; [by apply elem_of_nil in H|]. exists f. split; [done|]. split; [by apply rp_created|]. by apply (if_needed o o' f r).
    + by apply elem_of_nil in H.
    + apply elem_of_list_In, in_flat_map in H as (f & Hf & H). apply elem_of_list_In in Hf, H. exists f. split; [done|]. split; [by apply rp_dataset|]. apply (if_needed o o' f r); [done| |done]. rewrite Forall_forall in Hok. by apply Hok.
  - intros (e & f & He & Hr & H). exists e. split; [done|]. specialize (Hok e He). destruct Hr as [L|l Hf]; cbn in *.
    + rewrite L. cbn. by apply (if_needed o o' f r).
    + apply elem_of_list_In, in_flat_map. exists f. rewrite <- !elem_of_list_In. split; [done|]. apply (if_needed o o' f r); [done| |done]. rewrite Forall_forall in Hok. by apply Hok.
Qed.

(** Nothing is registered twice, unless a prefix is given twice or a face is reported twice. *)
Definition faces_of (e : event) : list face := match e with ENotification _ f => [f] | EDataset l => l end.
Theorem C82_once o evs : NoDup (o_all_prefixes o ++ o_prefixes o) -> NoDup (map f_id (flat_map faces_of evs)) -> NoDup (registrations o evs).
Proof.
  intros Hp. assert (F : forall f, NoDup (register_if_needed o f) /\ forall r, r ∈ register_if_needed o f -> r_face r = f_id f).
  { intros f. unfold register_if_needed. destruct (has_allowed_scheme _); [|split; [constructor|by intros ? ?%elem_of_nil]]. destruct (is_multicast _); [split; [constructor|by intros ? ?%elem_of_nil]|].
    assert (N1 : NoDup (register_for o (f_id f) (o_all_prefixes o ++ o_prefixes o))) by (unfold register_for; apply NoDup_fmap_2; [intros p q; congruence|done]).
    unfold register_for in N1. rewrite map_app in N1. split.
    - destruct (_ && _); [done|]. rewrite app_nil_r. by apply NoDup_app in N1 as [? _].
    - intros r [H|H]%elem_of_app; [by apply register_for_in in H as (_ & ? & _)|]. destruct (_ && _); [by apply register_for_in in H as (_ & ? & _)|by apply elem_of_nil in H]. }
  assert (L : forall l, NoDup (map f_id l) -> NoDup (flat_map (register_if_needed o) l) /\ forall r, r ∈ flat_map (register_if_needed o) l -> r_face r ∈ map f_id l).
  { induction l as [|f l IH]; cbn; [intros _; split; [constructor|by intros ? ?%elem_of_nil]|]. intros [Hf Hl]%NoDup_cons. destruct (IH Hl) as [IH1 IH2]. destruct (F f) as [F1 F2]. split.
    - apply NoDup_app. split; [done|]. split; [|done]. intros r H1 H2. apply Hf. rewrite <- (F2 r H1). by apply IH2.
    - intros r [H|H]%elem_of_app; apply elem_of_cons; [left; by apply F2|right; by apply IH2]. }
  assert (E : forall e, NoDup (map f_id (faces_of e)) -> NoDup (on_event o e) /\ forall r, r ∈ on_event o e -> r_face r ∈ map f_id (faces_of e)).
  { intros [c f|l]; cbn; [|apply L]. intros _. destruct (c && _); [|split; [constructor|by intros ? ?%elem_of_nil]]. destruct (F f) as [F1 F2]. split; [done|]. intros r H. apply elem_of_cons. left. by apply F2. }
  unfold registrations. enough (G : NoDup (map f_id (flat_map faces_of evs)) -> NoDup (flat_map (on_event o) evs) /\ forall r, r ∈ flat_map (on_event o) evs -> r_face r ∈ map f_id (flat_map faces_of evs)) by (intros H; by apply G).
  induction evs as [|e evs IH]; cbn; [intros _; split; [constructor|by intros ? ?%elem_of_nil]|]. rewrite map_app. intros (H1 & H2 & H3)%NoDup_app. destruct (E e H1) as [E1 E2]. destruct (IH H3) as [I1 I2]. split.
  - apply NoDup_app. split; [done|]. split; [|done]. intros r X Y. apply (H2 (r_face r)); [by apply E2|by apply I2].
  - intros r [H|H]%elem_of_app; apply elem_of_app; [left; by apply E2|right; by apply I2].
Qed.

(** The program runs exactly if some prefix is given. *)
Theorem C82_runs o : is_Some (prepare o) <-> o_prefixes o <> [] \/ o_all_prefixes o <> [].
Proof.
  unfold prepare. destruct (o_prefixes o), (o_all_prefixes o); (split; [intros [? E]; try discriminate E; try (by left); by right|intros [H|H]; try done; eauto]).
Qed.

(** Faces of the dataset are not asked for their scope: a local face that exists when the program starts gets the prefixes, although the same face, created later, does not. *)
Theorem C82_local_refuted (p : Name) : let o := Options [] [p] 255 [] [] in let f := Face 300 "tcp4" (Some (V4 127 0 0 1)) true false in
  exists o', prepare o = Some o' /\ registrations o' [EDataset [f]] = [Registration p 300 255] /\ registrations o' [ENotification true f] = [].
Proof. eexists. split; [reflexivity|]. split; reflexivity. Qed.
(** A host that is no address is taken for 0.0.0.0, which is neither multicast nor outside an empty whitelist. *)
Theorem C82_no_address_refuted (p : Name) : let o := Options [p] [] 255 [] [] in let f := Face 300 "udp4" None false true in
  exists o', prepare o = Some o' /\ registrations o' [ENotification true f] = [Registration p 300 255].
Proof. eexists. split; [reflexivity|]. reflexivity. Qed.
End autoreg.
Print Assumptions C82_registers.
Print Assumptions C82_once.
Print Assumptions C82_runs.
Print Assumptions C82_local_refuted.
Print Assumptions C82_no_address_refuted.

(** * Examples *)
Definition ex_o : options N := Options [1; 2]%N [3]%N 10 [] [Network (V4 10 0 0 0) (V4 10 255 255 255)].
Definition ex_evs : list event := [EDataset [Face 256 "tcp4" (Some (V4 192 0 2 1)) false true; Face 257 "udp4" (Some (V4 224 0 23 170)) false false];
  ENotification true (Face 258 "udp4" (Some (V4 10 1 2 3)) false true); ENotification true (Face 259 "ether" (Some (V4 1 2 3 4)) false true)].
Example C82_ex : exists o', prepare ex_o = Some o' /\ Forall event_ok ex_evs /\ registrations o' ex_evs = [Registration 3 256 10; Registration 1 256 10; Registration 2 256 10; Registration 3 258 10]%N.
Proof.
  eexists. split; [reflexivity|]. split; [|vm_compute; reflexivity]. unfold ex_evs, event_ok, face_ok. rewrite !Forall_cons. cbn. repeat split; try apply Forall_nil; try done; repeat (apply Forall_cons; split); try (eexists; split; [reflexivity|]; cbn; unfold byte; repeat (apply Forall_cons; split); try done); try apply Forall_nil; try (eexists; split; [reflexivity|]; repeat constructor).
Qed.
Example C82_ex_once : NoDup (o_all_prefixes ex_o ++ o_prefixes ex_o) /\ NoDup (map f_id (flat_map faces_of ex_evs)).
Proof. split; apply (bool_decide_unpack _); vm_compute; exact I. Qed.
