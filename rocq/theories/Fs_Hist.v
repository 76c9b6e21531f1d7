(** The whole section face_system, and histories of configurations and other events. *)
From Coq Require Import String Ascii.
From stdpp Require Import gmap strings.
From Verif Require Import Lib Cfg_Model Fs_Model Fs_Spec Fs_Read Fs_Proof.
Open Scope string_scope.
Open Scope list_scope.

(** * Sections *)
Lemma existsb_elem (k : string) l : existsb (String.eqb k) l = true <-> k ∈ l.
Proof.
  rewrite existsb_exists. split.
  - intros (x & Hx & E). apply String.eqb_eq in E. subst x. by apply elem_of_list_In.
  - intros H. exists k. split; [by apply elem_of_list_In|]. apply String.eqb_refl.
Qed.
Lemma sections_ok_spec l : forall seen,
  sections_ok seen l = true <->
  NoDup l /\ (forall k, k ∈ l -> k ∉ seen) /\ (forall k, k ∈ l -> k ∈ ["general"; "ether"; "tcp"; "udp"; "unix"; "websocket"; "netdev_bound"]).
Proof.
  induction l as [|k l IH]; intros seen; cbn [sections_ok].
  { split; [intros _|done]. split; [constructor|]. by split; intros ? ?%elem_of_nil. }
  assert (forall x, x ∈ "general" :: "netdev_bound" :: factory_names <-> x ∈ ["general"; "ether"; "tcp"; "udp"; "unix"; "websocket"; "netdev_bound"]) as En.
  { intros x. unfold factory_names. rewrite !elem_of_cons. tauto. }
  destruct (existsb (String.eqb k) seen) eqn:Es.
  { apply existsb_elem in Es. split; [done|]. intros (_ & H & _). by destruct (H k (elem_of_list_here _ _)). }
  assert (k ∉ seen) as Hs by (intros H; apply existsb_elem in H; congruence).
  destruct (existsb (String.eqb k) (_ :: _)) eqn:Ek.
  - apply existsb_elem, En in Ek. rewrite IH. split.
    + intros (N & S & A). split; [constructor; [|done]; intros H; apply (S k H); left|]. split; intros x Hx; apply elem_of_cons in Hx; destruct Hx as [Hx|Hx]; try (subst x; done).
      * specialize (S x Hx). intros H. apply S. by right.
      * by apply A.
    + intros (N & S & A). apply NoDup_cons in N as [Nk N]. split; [done|]. split.
      * intros x Hx. rewrite elem_of_cons. intros [->|H]; [done|]. apply (S x); [by right|done].
      * intros x Hx. apply A. by right.
  - split; [done|]. intros (_ & _ & A). assert (existsb (String.eqb k) ("general" :: "netdev_bound" :: factory_names) = true); [|congruence].
    apply existsb_elem, En, A. left.
Qed.
Lemma provide_spec id old new m k i :
  provide id old new m !! k = Some i <-> (k ∈ new /\ i = id) \/ (k ∉ new /\ k ∉ old /\ m !! k = Some i).
Proof.
  unfold provide. rewrite lookup_union_Some_raw, lookup_gset_to_gmap_Some, lookup_gset_to_gmap_None, map_filter_lookup_Some. cbn.
  rewrite elem_of_difference. split.
  - intros [[? <-]|(? & ? & N)]; [by left|right]. split; [done|]. split; [|done]. tauto.
  - intros [[? ->]|(? & ? & ?)]; [by left|right]. split; [done|]. split; [done|]. tauto.
Qed.

Set Default Proof Using "Type".
Section Whole.
Context {rules arules : Type}.
Variables (any_netif no_netif : rules) (read_rules : ptree -> option rules) (accepts : rules -> rules -> netif -> bool).
Variables (any_addr no_addr loopback_only : arules) (read_arules : ptree -> option arules).
Variables (make_v4 make_v6 make_ether : string -> option N).
Variable normal : string -> option string.
Variable parse_rule : ptree -> option (list string).
Notation fs := (@fs rules arules).
Notation udp_wants := (udp_wants any_netif no_netif read_rules make_v4 make_v6).
Notation tcp_wants := (tcp_wants any_addr no_addr loopback_only read_arules).
Notation ether_wants := (ether_wants any_netif no_netif read_rules make_ether).
Notation fs_valid := (fs_valid read_rules read_arules make_v4 make_v6 make_ether parse_rule).
Notation troubled := (troubled any_netif no_netif read_rules any_addr no_addr loopback_only read_arules make_v4 make_v6 make_ether normal).
Notation no_remotes := (no_remotes parse_rule).
Notation udp_section := (udp_section any_netif no_netif read_rules make_v4 make_v6).
Notation udp_config := (udp_config any_netif no_netif read_rules accepts make_v4 make_v6).
Notation tcp_section := (tcp_section any_addr no_addr loopback_only read_arules).
Notation tcp_config := (tcp_config any_addr no_addr loopback_only read_arules).
Notation ether_section := (ether_section any_netif no_netif read_rules make_ether).
Notation ether_config := (ether_config any_netif no_netif read_rules accepts make_ether).
Notation unix_config := (unix_config normal).
Notation process_config := (process_config any_netif no_netif read_rules accepts any_addr no_addr loopback_only read_arules make_v4 make_v6 make_ether normal parse_rule).
Notation udp_after := (udp_after any_netif no_netif read_rules accepts make_v4 make_v6).
Notation tcp_after := (tcp_after any_addr no_addr loopback_only read_arules).
Notation ether_after := (ether_after any_netif no_netif read_rules accepts make_ether).
Notation unix_after := (unix_after normal).

(** ** What the options ask for is unique *)
Lemma udp_wants_fun o c c' : udp_wants o c -> udp_wants o c' -> c = c'.
Proof.
  destruct o as [t|]; cbn; [|congruence]. intros (A1 & A2 & A3 & A4 & A5 & A6 & A7 & A8 & A9 & A10 & A11 & A12 & A13 & A14) (B1 & B2 & B3 & B4 & B5 & B6 & B7 & B8 & B9 & B10 & B11 & B12 & B13 & B14).
  rewrite A1 in B1; rewrite A2 in B2; rewrite A3 in B3; rewrite A4 in B4; rewrite A5 in B5; rewrite A6 in B6; rewrite A7 in B7; rewrite A8 in B8; rewrite A9 in B9; rewrite A10 in B10; rewrite A11 in B11; rewrite A12 in B12; rewrite A13 in B13; rewrite A14 in B14.
  clear A1 A2 A3 A4 A5 A6 A7 A8 A9 A10 A11 A12 A13 A14.
  destruct c as [a0 a1 a2 a3 a4 a5 a6 a7 a8 a9 a10 a11 a12 a13], c' as [b0 b1 b2 b3 b4 b5 b6 b7 b8 b9 b10 b11 b12 b13]. cbn [uc_listen uc_port uc_v4 uc_v6 uc_idle uc_mtu uc_mcast uc_group uc_gport uc_group6 uc_gport6 uc_adhoc uc_white uc_black] in *.
  injection B1 as <-. injection B2 as <-. injection B3 as <-. injection B4 as <-. injection B5 as <-. injection B6 as <-. injection B7 as <-.
  injection B8 as <-. injection B9 as <-. injection B10 as <-. injection B11 as <-. injection B12 as <-. injection B13 as <-. injection B14 as <-. done.
Qed.
Lemma ether_wants_fun o c c' : ether_wants o c -> ether_wants o c' -> c = c'.
Proof.
  destruct o as [t|]; cbn; [|congruence]. intros (A1 & A2 & A3 & A4 & A5 & A6 & A7 & A8) (B1 & B2 & B3 & B4 & B5 & B6 & B7 & B8).
  rewrite A2 in B2; rewrite A3 in B3; rewrite A4 in B4; rewrite A5 in B5; rewrite A6 in B6; rewrite A7 in B7; rewrite A8 in B8.
  clear A2 A3 A4 A5 A6 A7 A8. destruct c, c'; cbn in *; congruence.
Qed.
Lemma ws_wants_fun o c c' : ws_wants o c -> ws_wants o c' -> c = c'.
Proof.
  destruct o as [t|]; cbn; [|congruence]. intros (A1 & A2 & A3 & A4) (B1 & B2 & B3 & B4).
  rewrite A1 in B1; rewrite A2 in B2; rewrite A3 in B3; rewrite A4 in B4. clear A1 A2 A3 A4. destruct c, c'; cbn in *; congruence.
Qed.
Lemma tcp_stuck_fun t c c' e s v6 : tcp_wants t c -> tcp_wants t c' -> tcp_stuck c e s v6 -> tcp_stuck c' e s v6.
Proof.
  intros (A1 & A2 & A3 & A4 & _) (B1 & B2 & B3 & B4 & _). unfold tcp_stuck.
  rewrite A1 in B1; rewrite A2 in B2; rewrite A3 in B3; rewrite A4 in B4. injection B1 as <-. injection B2 as <-. injection B3 as <-. by injection B4 as <-.
Qed.

(** ** One factory *)
Lemma ether_turn o e s s' ok : ether_tidy (e_faces s) -> ether_config false o e s = (s', ok) ->
  (ok = true <-> if_there (ether_valid read_rules make_ether) o /\ ~ exists c k, ether_wants o c /\ ether_wanted c (en_netifs e) k = true /\ ether_bad c e (e_chans s) k) /\
  (ok = true -> ether_tidy (e_faces s') /\ ether_after o e s s').
Proof.
  intros T E0. pose proof (ether_config_spec any_netif no_netif read_rules accepts make_ether o e s s' ok T E0) as E. pose proof (ether_section_spec any_netif no_netif read_rules make_ether o) as S.
  destruct (ether_section o) as [c|]; [|subst ok; split; [split; [done|]; by intros (? & _)|done]].
  destruct S as (V & W), E as (F & G). split.
  - split.
    + intros ->. split; [done|]. intros (c' & k & W' & B). rewrite (ether_wants_fun _ _ _ W' W) in B. assert (true = false) by (apply F; eauto). done.
    + intros (_ & N). destruct ok; [done|]. destruct N. destruct (proj1 F eq_refl) as (k & B). eauto.
  - intros Hok. destruct (G Hok) as (G1 & G2 & G3). split; [done|]. exists c. done.
Qed.
Lemma udp_turn mark o e s s' ok : udp_config false mark o e s = (s', ok) ->
  (ok = true <-> if_there (udp_valid read_rules make_v4 make_v6) o /\ ~ exists c v6, udp_wants o c /\ udp_stuck c e s v6) /\
  (ok = true -> udp_after o mark e s s').
Proof.
  intros E. apply udp_config_spec in E. pose proof (udp_section_spec any_netif no_netif read_rules make_v4 make_v6 o) as S.
  destruct (udp_section o) as [c|]; [|subst ok; split; [split; [done|]; by intros (? & _)|done]].
  destruct S as (V & W), E as (F & G). split.
  - split.
    + intros ->. split; [done|]. intros (c' & k & W' & B). rewrite (udp_wants_fun _ _ _ W' W) in B. assert (true = false) by (apply F; eauto). done.
    + intros (_ & N). destruct ok; [done|]. destruct N. destruct (proj1 F eq_refl) as (k & B). eauto.
  - intros Hok. exists c. split; [done|]. by apply G.
Qed.
Lemma tcp_turn mark o e s s' ok : tcp_config false mark o e s = (s', ok) ->
  (ok = true <-> if_there (tcp_valid read_arules) o /\ ~ exists t c v6, o = Some t /\ tcp_wants t c /\ tcp_stuck c e s v6) /\
  (ok = true -> tcp_after o mark s s').
Proof.
  destruct o as [t|].
  2:{ intros [= <- <-]. split; [|done]. split; [|done]. intros _. split; [done|]. by intros (? & ? & ? & ? & _). }
  intros E. apply tcp_config_spec in E. pose proof (tcp_section_spec any_addr no_addr loopback_only read_arules t) as S.
  destruct (tcp_section t) as [c|]; [|subst ok; split; [split; [done|]; by intros (? & _)|done]].
  destruct S as (V & W), E as (F & G). split.
  - split.
    + intros ->. split; [done|]. intros (t' & c' & k & [= <-] & W' & B). assert (true = false); [|done]. apply F. exists k. by apply (tcp_stuck_fun t c').
    + intros (_ & N). destruct ok; [done|]. destruct N. destruct (proj1 F eq_refl) as (k & B). eauto 6.
  - intros Hok. exists c. split; [done|]. by apply G.
Qed.
Lemma ws_turn o e s s' ok : ws_config false o e s = (s', ok) ->
  (ok = true <-> if_there ws_valid o /\ ~ exists c v6, ws_wants o c /\ wc_listen c = true /\ ws_stuck c e s v6) /\
  (ok = true -> ws_after o s s').
Proof.
  intros E. apply ws_config_spec in E. pose proof (ws_section_spec o) as S.
  destruct (ws_section o) as [c|]; [|subst ok; split; [split; [done|]; by intros (? & _)|done]].
  destruct S as (V & W), E as (F & G). split.
  - split.
    + intros ->. split; [done|]. intros (c' & k & W' & L & B). rewrite (ws_wants_fun _ _ _ W' W) in L, B. assert (true = false) by (apply F; eauto). done.
    + intros (_ & N). destruct ok; [done|]. destruct N. destruct (proj1 F eq_refl) as (L & k & B). eauto.
  - intros Hok. exists c. split; [done|]. by apply G.
Qed.
Lemma unix_turn mark o e s s' ok : unix_config false mark o e s = (s', ok) ->
  (ok = true <-> if_there unix_valid o /\ ~ exists t path, o = Some t /\ unix_wants t path /\ forall p, normal path = Some p -> unix_stuck e s p) /\
  (ok = true -> unix_after o mark e s s').
Proof.
  destruct o as [t|].
  2:{ intros [= <- <-]. split; [|done]. split; [|done]. intros _. split; [done|]. by intros (? & ? & ? & _). }
  intros E. apply unix_config_spec in E. pose proof (unix_section_spec t) as S.
  destruct (unix_section t) as [path|]; [|subst ok; split; [split; [done|]; by intros (? & _)|done]].
  destruct S as (V & W).
  destruct (normal path) as [p|] eqn:En.
  2:{ subst ok. split; [|done]. split; [done|]. intros (_ & N). destruct N. exists t, path. split; [done|]. split; [done|]. intros p. congruence. }
  destruct E as (F & G). split.
  - split.
    + intros ->. split; [done|]. intros (t' & path' & [= <-] & W' & B). assert (path' = path) as -> by (unfold unix_wants in W, W'; congruence). assert (true = false); [|done]. apply F. by apply B.
    + intros (_ & N). destruct ok; [done|]. destruct N. exists t, path. split; [done|]. split; [done|]. intros p'. rewrite En. intros [= <-]. by apply F.
  - intros Hok. destruct (G Hok) as (G1 & G2). split; [done|]. exists path, p. done.
Qed.

(** ** A dry run *)
Lemma dry_spec t e (s s' : fs) ok :
  process_config true t e s = (s', ok) ->
  (ok = true <-> fs_valid t) /\ but_mark s s' /\
  (ok = true -> exists m, mark_wanted (pt_child "general" t) m /\ t_mark (f_tcp s') = m /\ u_mark (f_udp s') = m /\ x_mark (f_unix s') = m).
Proof.
  unfold Fs_Model.process_config, Fs_Spec.fs_valid. pose proof (sections_ok_spec (map fst (pt_children t)) []) as Sk.
  pose proof (general_section_spec (pt_child "general" t)) as S0. destruct (general_section _) as [mark|].
  2:{ intros [= <- <-]. split; [split; [done|]; tauto|]. split; [|done]. destruct s as [? [] [] [] ? ?]. do 3 (split; [done|]). cbn. split; [eexists; reflexivity|]. split; eexists; reflexivity. }
  destruct S0 as (V0 & M0).
  unfold Fs_Model.ether_config. pose proof (ether_section_spec any_netif no_netif read_rules make_ether (pt_child "ether" t)) as S1.
  destruct (ether_section _) as [c1|]; cbn [negb].
  2:{ intros [= <- <-]. split; [split; [done|]; tauto|]. split; [|done]. destruct s as [? [] [] [] ? ?]. do 3 (split; [done|]). cbn. split; [eexists; reflexivity|]. split; eexists; reflexivity. }
  destruct S1 as (V1 & _). unfold turn. cbn [f_ether f_tcp f_udp f_unix f_ws f_by].
  assert (exists ok2, tcp_config true mark (pt_child "tcp" t) e (f_tcp s) = (Tcpf mark (t_chans (f_tcp s)) (t_white (f_tcp s)) (t_black (f_tcp s)) (t_schemes (f_tcp s)), ok2) /\
    (ok2 = true <-> if_there (tcp_valid read_arules) (pt_child "tcp" t))) as (ok2 & -> & V2).
  { destruct (pt_child "tcp" t) as [t'|]; cbn [Fs_Model.tcp_config]; [|eexists; done].
    pose proof (tcp_section_spec any_addr no_addr loopback_only read_arules t') as S. destruct (tcp_section t') as [c|]; [exists true|exists false]; (split; [done|]); cbn [if_there]; [split; [intros _; apply S|done]|split; [done|intros V; destruct (S V)]]. }
  cbn [negb]. destruct ok2; cbn [negb].
  2:{ intros [= <- <-]. split; [split; [done|]; intuition congruence|]. split; [|done]. destruct s as [? [] [] [] ? ?]. do 3 (split; [done|]). cbn. split; [eexists; reflexivity|]. split; eexists; reflexivity. }
  assert (if_there (tcp_valid read_arules) (pt_child "tcp" t)) as V2' by tauto. cbn [f_ether f_tcp f_udp f_unix f_ws f_by].
  unfold Fs_Model.udp_config. pose proof (udp_section_spec any_netif no_netif read_rules make_v4 make_v6 (pt_child "udp" t)) as S3.
  destruct (udp_section _) as [c3|]; cbn [negb].
  2:{ intros [= <- <-]. split; [split; [done|]; tauto|]. split; [|done]. destruct s as [? [] [] [] ? ?]. do 3 (split; [done|]). cbn. split; [eexists; reflexivity|]. split; eexists; reflexivity. }
  destruct S3 as (V3 & _). cbn [f_ether f_tcp f_udp f_unix f_ws f_by].
  assert (exists ok4, unix_config true mark (pt_child "unix" t) e (f_unix s) = (Unixf mark (x_chans (f_unix s)) (x_removed (f_unix s)), ok4) /\
    (ok4 = true <-> if_there unix_valid (pt_child "unix" t))) as (ok4 & -> & V4).
  { destruct (pt_child "unix" t) as [t'|]; cbn [Fs_Model.unix_config]; [|eexists; done].
    pose proof (unix_section_spec t') as S. destruct (unix_section t') as [c|]; [exists true|exists false]; (split; [done|]); cbn [if_there]; [split; [intros _; apply S|done]|split; [done|intros V; destruct (S V)]]. }
  destruct ok4; cbn [negb].
  2:{ intros [= <- <-]. split; [split; [done|]; intuition congruence|]. split; [|done]. destruct s as [? [] [] [] ? ?]. do 3 (split; [done|]). cbn. split; [eexists; reflexivity|]. split; eexists; reflexivity. }
  assert (if_there unix_valid (pt_child "unix" t)) as V4' by tauto. cbn [f_ether f_tcp f_udp f_unix f_ws f_by].
  unfold ws_config. pose proof (ws_section_spec (pt_child "websocket" t)) as S5. destruct (ws_section _) as [c5|]; cbn [negb].
  2:{ intros [= <- <-]. split; [split; [done|]; tauto|]. split; [|done]. destruct s as [? [] [] [] ? ?]. do 3 (split; [done|]). cbn. split; [eexists; reflexivity|]. split; eexists; reflexivity. }
  destruct S5 as (V5 & _). cbn [f_ether f_tcp f_udp f_unix f_ws f_by].
  unfold netdev_config. pose proof (netdev_section_spec parse_rule (pt_child "netdev_bound" t)) as S6. destruct (netdev_section _ _) as [rs|].
  2:{ intros [= <- <-]. split; [split; [done|]; tauto|]. split; [|done]. destruct s as [? [] [] [] ? ?]. do 3 (split; [done|]). cbn. split; [eexists; reflexivity|]. split; eexists; reflexivity. }
  destruct S6 as (V6 & _). cbn [orb]. intros [= <- <-]. split.
  { rewrite Sk. split; [intros (? & _ & ?); tauto|]. intros (N & A & _). split; [done|]. split; [intros k _ H; by apply elem_of_nil in H|done]. }
  split; [|intros _; exists mark; done]. destruct s as [? [] [] [] ? ?]. do 3 (split; [done|]). cbn. split; [eexists; reflexivity|]. split; eexists; reflexivity.
Qed.
End Whole.
