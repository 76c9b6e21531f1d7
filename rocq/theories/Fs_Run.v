(** Configurations that are carried out; invariants of histories. *)
From Coq Require Import String Ascii.
From stdpp Require Import gmap strings.
From Verif Require Import Lib Cfg_Model Fs_Model Fs_Spec Fs_Read Fs_Proof Fs_Hist.
Open Scope string_scope.
Open Scope list_scope.
Set Default Proof Using "Type".
(** * Numbers *)
Lemma numbered_after {K} `{Countable K} closing W adhoc mark nx nx' (m m' : gmap K mface) :
  (nx <= nx')%N -> faces_after closing W adhoc mark nx nx' m m' -> own_numbers m m' -> numbered nx m -> numbered nx' m'.
Proof.
  intros L F O (B & I).
  assert (forall k f, m' !! k = Some f -> (exists f0, m !! k = Some f0 /\ mf_no f0 = mf_no f) \/ (m !! k = None /\ (nx <= mf_no f < nx')%N)) as G.
  { intros k f Hf. specialize (F k). destruct (m !! k) as [f0|] eqn:E.
    - left. exists f0. split; [done|]. rewrite F in Hf. injection Hf as <-. by destruct (_ && _).
    - right. split; [done|]. destruct (List.find _ W); [|congruence]. destruct F as (no & Hno & F). rewrite F in Hf. by injection Hf as <-. }
  split.
  - intros k f Hf. destruct (G k f Hf) as [(f0 & E & <-)|(_ & ?)]; [specialize (B _ _ E); lia|lia].
  - intros k k' f f' H1 H2 Heq. destruct (G _ _ H1) as [(f0 & E & Q)|(E & Q)], (G _ _ H2) as [(f0' & E' & Q')|(E' & Q')].
    + apply (I k k' f0 f0'); [done..|congruence].
    + specialize (B _ _ E). lia.
    + specialize (B _ _ E'). lia.
    + by apply (O k k' f f').
Qed.
Lemma numbered_alter {K} `{Countable K} nx k (m : gmap K mface) : numbered nx m -> numbered nx (alter close_mface k m).
Proof.
  intros (B & I). assert (forall k' f, alter close_mface k m !! k' = Some f -> exists f0, m !! k' = Some f0 /\ mf_no f0 = mf_no f) as G.
  { intros k' f. destruct (decide (k = k')) as [<-|N]; [rewrite lookup_alter|rewrite lookup_alter_ne by done; eauto]. destruct (m !! k) as [f0|]; [|done]. intros [= <-]. by exists f0. }
  split.
  - intros k' f Hf. destruct (G _ _ Hf) as (f0 & E & <-). by apply (B k').
  - intros k1 k2 f1 f2 H1 H2 Q. destruct (G _ _ H1) as (g1 & E1 & Q1). destruct (G _ _ H2) as (g2 & E2 & Q2). apply (I k1 k2 g1 g2); [done..|congruence].
Qed.
Lemma numbered_delete {K} `{Countable K} nx k (m : gmap K mface) : numbered nx m -> numbered nx (delete k m).
Proof. intros (B & I). split; [intros k' f [_ E]%lookup_delete_Some; by apply (B k')|]. intros k1 k2 f1 f2 [_ E1]%lookup_delete_Some [_ E2]%lookup_delete_Some. by apply I. Qed.
Lemma tidy_alter k m : ether_tidy m -> ether_tidy (alter close_mface k m).
Proof. intros T k' f. destruct (decide (k = k')) as [<-|N]; [rewrite lookup_alter|rewrite lookup_alter_ne by done; apply T]. destruct (m !! k) as [f0|] eqn:E; [|done]. intros [= <-]. apply (T _ _ E). Qed.

Section Whole.
Context {rules arules : Type}.
Variables (any_netif no_netif : rules) (read_rules : ptree -> option rules) (accepts : rules -> rules -> netif -> bool).
Variables (any_addr no_addr loopback_only : arules) (read_arules : ptree -> option arules).
Variables (make_v4 make_v6 make_ether : string -> option N).
Variable normal : string -> option string.
Variable parse_rule : ptree -> option (list string).
Notation fs := (@fs rules arules).
Notation udp_wants := (udp_wants any_netif no_netif read_rules make_v4 make_v6).
Notation tcp_wants := (tcp_wants any_addr no_addr loopback_only read_arules).
Notation ether_wants := (ether_wants any_netif no_netif read_rules make_ether).
Notation fs_valid := (fs_valid read_rules read_arules make_v4 make_v6 make_ether parse_rule).
Notation troubled := (troubled any_netif no_netif read_rules any_addr no_addr loopback_only read_arules make_v4 make_v6 make_ether normal).
Notation no_remotes := (no_remotes parse_rule).
Notation udp_section := (udp_section any_netif no_netif read_rules make_v4 make_v6).
Notation udp_config := (udp_config any_netif no_netif read_rules accepts make_v4 make_v6).
Notation tcp_section := (tcp_section any_addr no_addr loopback_only read_arules).
Notation tcp_config := (tcp_config any_addr no_addr loopback_only read_arules).
Notation ether_section := (ether_section any_netif no_netif read_rules make_ether).
Notation ether_config := (ether_config any_netif no_netif read_rules accepts make_ether).
Notation unix_config := (unix_config normal).
Notation process_config := (process_config any_netif no_netif read_rules accepts any_addr no_addr loopback_only read_arules make_v4 make_v6 make_ether normal parse_rule).
Notation udp_after := (udp_after any_netif no_netif read_rules accepts make_v4 make_v6).
Notation tcp_after := (tcp_after any_addr no_addr loopback_only read_arules).
Notation ether_after := (ether_after any_netif no_netif read_rules accepts make_ether).
Notation unix_after := (unix_after normal).


Definition remotes_ok (t : ptree) (m : gmap string string) : Prop :=
  forall t' x r sch, pt_child "netdev_bound" t = Some t' -> x ∈ pt_children t' -> parse_rule (snd x) = Some r -> sch ∈ r -> exists id, m !! (sch ++ "+dev")%string = Some id.
Lemma netdev_turn t (s : fs) :
  netdev_config parse_rule false (pt_child "netdev_bound" t) s = true <->
  if_there (netdev_valid parse_rule) (pt_child "netdev_bound" t) /\ remotes_ok t (f_by s).
Proof.
  unfold netdev_config, remotes_ok. pose proof (netdev_section_spec parse_rule (pt_child "netdev_bound" t)) as S.
  destruct (netdev_section _ _) as [rs|]; [|split; [done|by intros (? & _)]]. destruct S as (V & F). cbn [orb]. rewrite forallb_forall. split.
  - intros A. split; [done|]. intros t' x r sch Ht Hx Hr Hs. rewrite Ht in F. apply elem_of_list_lookup in Hx as (i & Hi).
    destruct (Forall2_lookup_l _ _ _ _ _ F Hi) as (r' & Hr' & E). assert (r' = r) as -> by congruence.
    assert (In r rs) as Hin by (apply elem_of_list_In, elem_of_list_lookup; eauto). specialize (A r Hin). rewrite forallb_forall in A.
    specialize (A sch (proj1 (elem_of_list_In _ _) Hs)). destruct (f_by s !! _); [eauto|done].
  - intros (_ & A) r Hr. apply forallb_forall. intros sch Hs. apply elem_of_list_In, elem_of_list_lookup in Hr as (i & Hi).
    destruct (Forall2_lookup_r _ _ _ _ _ F Hi) as (x & Hx & E). destruct (pt_child "netdev_bound" t) as [t'|]; [|done].
    destruct (A t' x r sch eq_refl) as (id & ->); [apply elem_of_list_lookup; eauto|done|by apply elem_of_list_In|done].
Qed.
Definition provide_all (s s' : fs) : gmap string string :=
  provide "udp" (u_schemes (f_udp s)) (u_schemes (f_udp s')) (provide "tcp" (t_schemes (f_tcp s)) (t_schemes (f_tcp s')) (provide "ether" (e_schemes (f_ether s)) (e_schemes (f_ether s')) (f_by s))).
Lemma turn_by id old new (s : fs) : turn false id old new s = Fs (f_ether s) (f_tcp s) (f_udp s) (f_unix s) (f_ws s) (provide id old new (f_by s)).
Proof. done. Qed.
Ltac bind s1 :=
  match goal with |- (let s := ?v in @?B s) = ?r -> ?G => pose (s1 := v); change (B s1 = r -> G); cbv beta end.
Lemma real_spec t e (s s' : fs) ok :
  ether_tidy (e_faces (f_ether s)) -> process_config false t e s = (s', ok) ->
  (ok = true <-> fs_valid t /\ ~ troubled t e s /\ remotes_ok t (f_by s')) /\
  (ok = true -> ether_tidy (e_faces (f_ether s')) /\ f_by s' = provide_all s s' /\
    exists mark, mark_wanted (pt_child "general" t) mark /\
      ether_after (pt_child "ether" t) e (f_ether s) (f_ether s') /\ tcp_after (pt_child "tcp" t) mark (f_tcp s) (f_tcp s') /\
      udp_after (pt_child "udp" t) mark e (f_udp s) (f_udp s') /\ unix_after (pt_child "unix" t) mark e (f_unix s) (f_unix s') /\
      ws_after (pt_child "websocket" t) (f_ws s) (f_ws s')).
Proof.
  intros T. cbv delta [Fs_Model.process_config] beta.
  pose proof (general_section_spec (pt_child "general" t)) as S0. destruct (general_section _) as [mark|].
  2:{ intros [= <- <-]. split; [split; [done|]; intros ((_ & _ & V & _) & _); done|done]. }
  destruct S0 as (V0 & M0).
  destruct (ether_config _ _ _ _) as [x1 ok1] eqn:E1. apply ether_turn in E1 as (F1 & A1); [|done].
  bind y1. destruct ok1; cbv beta iota delta [negb].
  2:{ intros [= <- <-]. split; [|done]. split; [done|]. intros ((_ & _ & _ & V & _) & N & _). apply F1. split; [exact V|]. intros H. apply N. by left. }
  bind z1. change (f_tcp z1) with (f_tcp s).
  destruct (tcp_config _ _ _ _ _) as [x2 ok2] eqn:E2. apply tcp_turn in E2 as (F2 & A2).
  bind y2. destruct ok2; cbv beta iota delta [negb].
  2:{ intros [= <- <-]. split; [|done]. split; [done|]. intros ((_ & _ & _ & _ & V & _) & N & _). apply F2. split; [exact V|]. intros H. apply N. by right; left. }
  bind z2. change (f_udp z2) with (f_udp s).
  destruct (udp_config _ _ _ _ _) as [x3 ok3] eqn:E3. apply udp_turn in E3 as (F3 & A3).
  bind y3. destruct ok3; cbv beta iota delta [negb].
  2:{ intros [= <- <-]. split; [|done]. split; [done|]. intros ((_ & _ & _ & _ & _ & V & _) & N & _). apply F3. split; [exact V|]. intros H. apply N. by do 2 right; left. }
  bind z3. change (f_unix z3) with (f_unix s).
  destruct (unix_config _ _ _ _ _) as [x4 ok4] eqn:E4. apply unix_turn in E4 as (F4 & A4).
  bind y4. destruct ok4; cbv beta iota delta [negb].
  2:{ intros [= <- <-]. split; [|done]. split; [done|]. intros ((_ & _ & _ & _ & _ & _ & V & _) & N & _). apply F4. split; [exact V|]. intros H. apply N. by do 3 right; left. }
  change (f_ws y4) with (f_ws s).
  destruct (ws_config _ _ _ _) as [x5 ok5] eqn:E5. apply ws_turn in E5 as (F5 & A5).
  bind y5. destruct ok5; cbv beta iota delta [negb].
  2:{ intros [= <- <-]. split; [|done]. split; [done|]. intros ((_ & _ & _ & _ & _ & _ & _ & V & _) & N & _). apply F5. split; [exact V|]. intros H. apply N. by do 4 right. }
  pose proof (netdev_turn t y5) as F6.
  destruct (netdev_config _ _ _ _).
  2:{ intros [= <- <-]. split; [|done]. split; [done|]. intros ((_ & _ & _ & _ & _ & _ & _ & _ & V) & _ & R). by apply F6. }
  pose proof (sections_ok_spec (map fst (pt_children t)) []) as F7. intros [= <- <-].
  destruct (proj1 F1 eq_refl) as (V1 & N1). destruct (proj1 F2 eq_refl) as (V2 & N2). destruct (proj1 F3 eq_refl) as (V3 & N3).
  destruct (proj1 F4 eq_refl) as (V4 & N4). destruct (proj1 F5 eq_refl) as (V5 & N5). destruct (proj1 F6 eq_refl) as (V6 & N6).
  destruct (A1 eq_refl) as (A1a & A1b). split.
  - rewrite F7. split.
    + intros (Q1 & _ & Q2). split; [done|]. split; [|done]. intros [H|[H|[H|[H|H]]]]; done.
    + intros ((Q1 & Q2 & _) & _). split; [done|]. split; [intros k _ H; by apply elem_of_nil in H|done].
  - intros _. split; [done|]. split; [done|]. exists mark. split; [done|]. split; [done|]. split; [by apply A2|]. split; [by apply A3|]. split; [by apply A4|by apply A5].
Qed.

(** ** New interfaces and addresses *)
Lemma udp_netif_spec e n (s : @udpf rules) :
  let s' := fst (udp_netif accepts e n s) in
  u_mark s' = u_mark s /\ u_mtu s' = u_mtu s /\ u_chans s' = u_chans s /\ u_conf s' = u_conf s /\ u_schemes s' = u_schemes s /\ (u_next s <= u_next s')%N /\
  (forall i, i ∈ u_watch s' <-> i ∈ u_watch s \/ (watched accepts (u_conf s) n /\ ni_index n = i)) /\
  faces_after false (udp_wishes accepts (u_conf s) (u_chans s) e [n]) (uc_adhoc (u_conf s)) (u_mark s) (u_next s) (u_next s') (u_faces s) (u_faces s') /\
  own_numbers (u_faces s) (u_faces s').
Proof.
  cbn zeta. destruct (udp_netif_ens accepts e n s) as (wt & Hw & N). destruct (ens_all _ _ _ _ _) as [[m nx] k] eqn:E. rewrite N. cbn.
  destruct (ens_all_spec _ _ _ _ _ _ _ _ E) as (L & F & _). pose proof (ens_all_numbers _ _ _ _ _ _ _ _ E). done.
Qed.
Lemma ether_netif_spec e n (s x : @etherf rules) :
  ether_tidy (e_faces s) -> ether_chan e n s = (x, true) ->
  let s' := fst (ether_mface accepts e n x) in
  let c := e_conf s in
  ether_tidy (e_faces s') /\ e_conf s' = c /\ e_schemes s' = e_schemes s /\ (e_next s <= e_next s')%N /\
  chans_after (ether_wanted c [n]) (ec_listen c) (Chan false (ec_idle c) 0 false) (e_chans s) (e_chans s') /\
  (forall k, k ∈ e_active s' <-> k ∈ e_active s \/ (ether_wanted c [n] k = true /\ ether_starts c e (e_chans s) k)) /\
  faces_after false (ether_wishes accepts c e [n]) (ec_adhoc c) false (e_next s) (e_next s') (e_faces s) (e_faces s') /\
  own_numbers (e_faces s) (e_faces s').
Proof.
  intros T E. apply ether_chan_spec in E as (C1 & F1 & S1 & N1 & _ & G). destruct (G eq_refl) as (G1 & G2). cbn zeta.
  pose proof (ether_mface_ens accepts e n x) as M. rewrite F1 in M. specialize (M T). rewrite C1, N1 in M.
  destruct (ens_all _ _ _ _ _) as [[m nx] k] eqn:E. destruct M as (Tm & r & M & _). rewrite M. cbn.
  destruct (ens_all_spec _ _ _ _ _ _ _ _ E) as (L & F & _). pose proof (ens_all_numbers _ _ _ _ _ _ _ _ E). done.
Qed.

(** ** Histories *)
Notation run := (run any_netif no_netif read_rules accepts any_addr no_addr loopback_only read_arules make_v4 make_v6 make_ether normal parse_rule).
Notation step := (step any_netif no_netif read_rules accepts any_addr no_addr loopback_only read_arules make_v4 make_v6 make_ether normal parse_rule).
Notation fs_new := (fs_new any_netif no_netif any_addr no_addr).
Definition good_groups (s : fs) : Prop :=
  (224 * 2 ^ 24 <= uc_group (u_conf (f_udp s)) < 240 * 2 ^ 24)%N /\ (255 * 2 ^ 120 <= uc_group6 (u_conf (f_udp s)) < 256 * 2 ^ 120)%N /\
  N.testbit (ec_group (e_conf (f_ether s))) 40 = true.
Definition table_ok (s : fs) : Prop :=
  e_schemes (f_ether s) ⊆ {[ "ether" ]} /\ t_schemes (f_tcp s) ⊆ {[ "tcp"; "tcp4"; "tcp6" ]} /\ u_schemes (f_udp s) ⊆ {[ "udp"; "udp4"; "udp6" ]} /\
  forall k id, f_by s !! k = Some id <-> provided s k id.
Definition inv (s : fs) : Prop :=
  ether_tidy (e_faces (f_ether s)) /\ numbered (e_next (f_ether s)) (e_faces (f_ether s)) /\ numbered (u_next (f_udp s)) (u_faces (f_udp s)) /\
  good_groups s /\ table_ok s.
Lemma value_in {A} (P : A -> Prop) key f d l c : value key f d l = Some c -> P d -> (forall t x, f t = Some x -> P x) -> P c.
Proof. unfold value. destruct (last _) as [t|]; [|intros [= <-]; done]. intros E _ H. by apply (H t). Qed.
Lemma ether_group_ok o c : ether_wants o c -> N.testbit (ec_group c) 40 = true.
Proof.
  destruct o as [t|]; [|intros ->; reflexivity]. intros (_ & _ & _ & _ & V & _). revert V. intros V.
  apply (value_in (fun n => N.testbit n 40 = true) _ _ _ _ _ V); [reflexivity|]. intros t' x. unfold multicast_ether.
  destruct (make_ether (pt_value t')) as [n|]; [|done]. cbn [mbind option_bind]. destruct (n =? 0)%N; [done|]. destruct (N.testbit n 40) eqn:E; [|done]. by intros [= <-].
Qed.
Lemma udp_group_ok o c : udp_wants o c -> (224 * 2 ^ 24 <= uc_group c < 240 * 2 ^ 24)%N /\ (255 * 2 ^ 120 <= uc_group6 c < 256 * 2 ^ 120)%N.
Proof.
  destruct o as [t|].
  2:{ intros ->. split; (split; [by apply N.leb_le|by apply N.ltb_lt]). }
  intros (_ & _ & _ & _ & _ & _ & _ & V & _ & V6 & _). split.
  - apply (value_in (fun n => 224 * 2 ^ 24 <= n < 240 * 2 ^ 24)%N _ _ _ _ _ V); [split; [by apply N.leb_le|by apply N.ltb_lt]|]. intros t' x. unfold multicast4.
    destruct (make_v4 (pt_value t')) as [n|]; [|done]. cbn [mbind option_bind]. destruct (_ && _) eqn:E; [|done]. intros [= <-].
    apply andb_true_iff in E as [E1 E2]. split; [by apply N.leb_le|by apply N.ltb_lt].
  - apply (value_in (fun n => 255 * 2 ^ 120 <= n < 256 * 2 ^ 120)%N _ _ _ _ _ V6); [split; [by apply N.leb_le|by apply N.ltb_lt]|]. intros t' x. unfold multicast6.
    destruct (make_v6 (pt_value t')) as [n|]; [|done]. cbn [mbind option_bind]. destruct (_ && _) eqn:E; [|done]. intros [= <-].
    apply andb_true_iff in E as [E1 E2]. split; [by apply N.leb_le|by apply N.ltb_lt].
Qed.
Lemma schemes_after t e mark (s s' : fs) :
  ether_after (pt_child "ether" t) e (f_ether s) (f_ether s') -> tcp_after (pt_child "tcp" t) mark (f_tcp s) (f_tcp s') -> udp_after (pt_child "udp" t) mark e (f_udp s) (f_udp s') ->
  f_by s' = provide_all s s' -> table_ok s -> table_ok s'.
Proof.
  intros (c & _ & _ & Se & _) Ht (c' & _ & _ & _ & _ & Su & _) By (Ie & It & Iu & B).
  assert (e_schemes (f_ether s') ⊆ {[ "ether" ]}) as Ie'.
  { intros k Hk. apply Se in Hk as [[Hk _]|[-> _]]; [by apply Ie|by apply elem_of_singleton]. }
  assert (t_schemes (f_tcp s') ⊆ {[ "tcp"; "tcp4"; "tcp6" ]} /\ t_schemes (f_tcp s) ⊆ t_schemes (f_tcp s')) as (It' & Lt).
  { destruct (pt_child "tcp" t); [|destruct Ht as (_ & _ & _ & _ & ->); done]. destruct Ht as (d & _ & _ & _ & _ & St & _). split.
    - intros k Hk. apply St in Hk. rewrite !elem_of_union, !elem_of_singleton. destruct Hk as [Hk|[->|[[-> _]|[-> _]]]]; [apply It in Hk; by rewrite !elem_of_union, !elem_of_singleton in Hk|by left; left|by left; right|by right].
    - intros k Hk. apply St. by left. }
  assert (u_schemes (f_udp s') ⊆ {[ "udp"; "udp4"; "udp6" ]} /\ u_schemes (f_udp s) ⊆ u_schemes (f_udp s')) as (Iu' & Lu).
  { split.
    - intros k Hk. apply Su in Hk. rewrite !elem_of_union, !elem_of_singleton. destruct Hk as [Hk|[[-> _]|[[-> _]|[-> _]]]]; [apply Iu in Hk; by rewrite !elem_of_union, !elem_of_singleton in Hk|by left; left|by left; right|by right].
    - intros k Hk. apply Su. by left. }
  do 3 (split; [done|]). intros k id. rewrite By. unfold provide_all. rewrite !provide_spec, B. unfold provided.
  assert (forall k, k ∈ ({[ "udp"; "udp4"; "udp6" ]} : gset string) -> k ∉ ({[ "tcp"; "tcp4"; "tcp6" ]} : gset string) /\ k ∉ ({[ "ether" ]} : gset string)) as D1.
  { intros x. rewrite !elem_of_union, !elem_of_singleton. intros [[->| ->]| ->]; (split; [by intros [[?|?]|?]|by intros ?]). }
  assert (forall k, k ∈ ({[ "tcp"; "tcp4"; "tcp6" ]} : gset string) -> k ∉ ({[ "ether" ]} : gset string)) as D2.
  { intros x. rewrite !elem_of_union, !elem_of_singleton. intros [[->| ->]| ->]; by intros ?. }
  specialize (Ie k). specialize (It k). specialize (Iu k). specialize (Ie' k). specialize (It' k). specialize (Iu' k). specialize (Lt k). specialize (Lu k). specialize (D1 k). specialize (D2 k). clear -Ie It Iu Ie' It' Iu' Lt Lu D1 D2.
  split.
  - intros [[H ->]|(N1 & N2 & [[H ->]|(N3 & N4 & [[H ->]|(N5 & N6 & [[-> H]|[[-> H]|[-> H]]])])])]; [by right; right|by right; left|by left|done..].
  - intros [[-> H]|[[-> H]|[-> H]]].
    + right. split; [intros Q; destruct (D1 (Iu' Q)) as [_ Q']; by apply Q', Ie'|]. split; [intros Q; destruct (D1 (Iu' (Lu Q))) as [_ Q']; by apply Q', Ie'|].
      right. split; [intros Q; by apply (D2 (It' Q)), Ie'|]. split; [intros Q; by apply (D2 (It' (Lt Q))), Ie'|]. by left.
    + right. split; [intros Q; destruct (D1 (Iu' Q)) as [Q' _]; by apply Q', It'|]. split; [intros Q; destruct (D1 (Iu' (Lu Q))) as [Q' _]; by apply Q', It'|]. by left.
    + by left.
Qed.
Lemma step_inv (s s' : fs) v : inv s -> step s v = Some s' -> inv s'.
Proof.
  intros (T & Ne & Nu & G & B). destruct v as [dry t e|n e|n e|ep|ep|key|key]; cbn [Fs_Model.step].
  - destruct (process_config dry t e s) as [x ok] eqn:E. destruct ok; [|done]. intros [= <-]. destruct dry.
    + apply dry_spec in E as (_ & (E1 & E2 & E3 & (b1 & E4) & (b2 & E5) & (b3 & E6)) & _). unfold inv, good_groups, table_ok, provided.
      rewrite E1, E3, E4, E5. cbn. done.
    + apply real_spec in E as (_ & E); [|done]. destruct (E eq_refl) as (T' & By & mark & _ & Ae & At & Au & _).
      split; [done|]. pose proof (schemes_after _ _ _ _ _ Ae At Au By B) as B'.
      destruct Ae as (c & We & Ce & _ & _ & _ & Le & Fe & Oe). destruct Au as (c' & Wu & Cu & _ & _ & _ & _ & Lu & _ & Fu & Ou).
      split; [by eapply numbered_after|]. split; [by eapply numbered_after|]. split; [|done].
      unfold good_groups. rewrite Ce, Cu. apply udp_group_ok in Wu as (? & ?). split; [done|]. split; [done|]. by eapply ether_group_ok.
  - destruct (ether_chan e n (f_ether s)) as [x ok] eqn:E. destruct ok; [|done]. pose proof (ether_netif_spec e n _ _ T E) as H. cbn zeta in H.
    destruct (ether_mface accepts e n x) as [x' r]. cbn [fst] in H. destruct H as (T' & Ce & Se & Le & _ & _ & Fe & Oe).
    pose proof (udp_netif_spec e n (f_udp s)) as H. cbn zeta in H. destruct (udp_netif accepts e n (f_udp s)) as [u k]. cbn [fst] in H |- *.
    destruct H as (_ & _ & _ & Cu & Su & Lu & _ & Fu & Ou). intros [= <-]. unfold inv, good_groups, table_ok, provided. cbn [set_udp set_ether f_ether f_tcp f_udp f_by].
    rewrite Ce, Se, Cu, Su. split; [done|]. split; [by eapply numbered_after|]. split; [by eapply numbered_after|]. done.
  - destruct (decide _); [|intros [= <-]; done].
    pose proof (udp_netif_spec e n (f_udp s)) as H. cbn zeta in H. destruct (udp_netif accepts e n (f_udp s)) as [u k]. cbn [fst] in H |- *.
    destruct H as (_ & _ & _ & Cu & Su & Lu & _ & Fu & Ou). intros [= <-]. unfold inv, good_groups, table_ok, provided. cbn [set_udp f_ether f_tcp f_udp f_by].
    rewrite Cu, Su. split; [done|]. split; [done|]. split; [by eapply numbered_after|]. done.
  - intros [= <-]. split; [done|]. split; [done|]. split; [by apply numbered_alter|]. done.
  - destruct (u_faces (f_udp s) !! ep) as [f|]; [|done]. destruct (mf_closing f); [|done]. intros [= <-]. split; [done|]. split; [done|]. split; [by apply numbered_delete|]. done.
  - intros [= <-]. split; [by apply tidy_alter|]. split; [by apply numbered_alter|]. done.
  - destruct (e_faces (f_ether s) !! key) as [f|]; [|done]. destruct (mf_closing f); [|done]. intros [= <-].
    split; [intros k' f'; cbn; intros [_ E]%lookup_delete_Some; by apply T|]. split; [by apply numbered_delete|]. done.
Qed.
Lemma new_inv : inv fs_new.
Proof.
  split; [intros k f; cbn; by rewrite lookup_empty|]. split; [split; [intros k f|intros k k' f f']; cbn; by rewrite lookup_empty|]. split; [split; [intros k f|intros k k' f f']; cbn; by rewrite lookup_empty|].
  split.
  - split; [split; [by apply N.leb_le|by apply N.ltb_lt]|]. split; [split; [by apply N.leb_le|by apply N.ltb_lt]|reflexivity].
  - split; [by intros ? []%elem_of_empty|]. split; [by intros ? []%elem_of_empty|]. split; [by intros ? []%elem_of_empty|].
    intros k id. cbn. rewrite lookup_empty. split; [done|]. by intros [[_ []%elem_of_empty]|[[_ []%elem_of_empty]|[_ []%elem_of_empty]]].
Qed.
Lemma run_inv l : forall s s' : fs, inv s -> run s l = Some s' -> inv s'.
Proof.
  induction l as [|v l IH]; intros s s' I; cbn [Fs_Model.run]; [by intros [= <-]|].
  destruct (step s v) as [s1|] eqn:E; [|done]. apply IH. by apply (step_inv s s1 v).
Qed.
(** no scheme of the table ends in "+dev" *)
Lemma no_dev (s : fs) sch : table_ok s -> f_by s !! (sch ++ "+dev")%string = None.
Proof.
  intros (Ie & It & Iu & B). destruct (f_by s !! _) as [id|] eqn:E; [|done]. exfalso. apply B in E.
  assert ((sch ++ "+dev")%string ∈ ["ether"; "tcp"; "tcp4"; "tcp6"; "udp"; "udp4"; "udp6"]) as H.
  { destruct E as [[_ E]|[[_ E]|[_ E]]]; [apply Ie in E|apply It in E|apply Iu in E]; rewrite ?elem_of_union, ?elem_of_singleton in E; rewrite !elem_of_cons; clear -E; tauto. }
  clear -H. rewrite !elem_of_cons in H. destruct H as [H|[H|[H|[H|[H|[H|[H|H]]]]]]]; [..|by apply elem_of_nil in H];
    repeat first [destruct sch; discriminate H | destruct sch as [|? sch]; cbn in H; [discriminate H|]; injection H as _ H].
Qed.
Lemma remotes_none t (s : fs) : table_ok s -> remotes_ok t (f_by s) <-> no_remotes t.
Proof.
  intros B. split.
  - intros R t' x r Ht Hx Hr. destruct r as [|sch r]; [done|]. destruct (R t' x _ sch Ht Hx Hr) as (id & E); [left|]. by rewrite no_dev in E.
  - intros R t' x r sch Ht Hx Hr Hs. rewrite (R t' x r Ht Hx Hr) in Hs. by apply elem_of_nil in Hs.
Qed.
End Whole.
