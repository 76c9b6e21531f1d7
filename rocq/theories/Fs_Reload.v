(** Reloads of an unchanged file; what no event changes. *)
From Coq Require Import String Ascii.
From stdpp Require Import gmap strings.
From Verif Require Import Lib Cfg_Model Fs_Model Fs_Spec Fs_Read Fs_Proof Fs_Hist Fs_Run.
Open Scope string_scope.
Open Scope list_scope.
Lemma chans_again {K} `{Countable K} wanted l new (m m1 m2 : gmap K chan) : chans_after wanted l new m m1 -> chans_after wanted l new m1 m2 -> m2 = m1.
Proof.
  intros A B. apply map_eq. intros k. specialize (A k). specialize (B k). rewrite B. destruct (wanted k); [|done].
  rewrite A. destruct (m !! k) as [c|]; cbn; [|by rewrite orb_diag]. by rewrite <-orb_assoc, orb_diag.
Qed.
Lemma faces_again {K} `{Countable K} W ad mk nx nx1 nx' nx2 (m m1 m2 : gmap K mface) :
  faces_after true W ad mk nx nx1 m m1 -> faces_after true W ad mk nx' nx2 m1 m2 -> m2 = m1.
Proof.
  intros A B. apply map_eq. intros k. specialize (A k). specialize (B k). destruct (m !! k) as [f0|].
  - rewrite A in B. rewrite B, A. f_equal. cbn [andb].
    destruct (existsb (fun w => bool_decide (wi_key w = k) && (wi_group w =? mf_group f0)%N && (wi_scope w =? mf_scope f0)%N) W) eqn:E; cbn [negb].
    + by rewrite E.
    + cbn [mf_group mf_scope mf_adhoc mf_mark mf_no]. by rewrite E.
  - destruct (List.find _ W) as [w|] eqn:E.
    + destruct A as (no & _ & A). rewrite A in B. rewrite B, A. f_equal. cbn [andb mf_group mf_scope]. apply List.find_some in E as [Hin E]. apply andb_true_iff in E as [E _].
      assert (existsb (fun w0 => bool_decide (wi_key w0 = k) && (wi_group w0 =? wi_group w)%N && (wi_scope w0 =? wi_scope w)%N) W = true) as ->.
      { apply existsb_exists. exists w. split; [done|]. by rewrite E, !N.eqb_refl. }
      done.
    + rewrite A in B. by rewrite A, B.
Qed.
Lemma kept_refl {K} `{Countable K} (m : gmap K chan) : kept m m.
Proof. intros k [a b d o] E. by exists o. Qed.
Lemma kept_trans {K} `{Countable K} (m m1 m2 : gmap K chan) : kept m m1 -> kept m1 m2 -> kept m m2.
Proof. intros A B k c E. destruct (A _ _ E) as (o & E1 & O). destruct (B _ _ E1) as (o' & E2 & O'). exists o'. split; [done|]. intros Hc. by apply O', O. Qed.
Lemma kept_after {K} `{Countable K} wanted l new (m m' : gmap K chan) : chans_after wanted l new m m' -> kept m m'.
Proof.
  intros A k [a b d o] E. specialize (A k). rewrite E in A. destruct (wanted k); [exists (o || l)|exists o]; (split; [exact A|]); cbn; [by intros ->|done].
Qed.
(** a channel that was wanted is there, and it listens if that was wanted *)
Lemma wanted_after {K} `{Countable K} wanted l new (m m' : gmap K chan) k : chans_after wanted l new m m' -> wanted k = true -> exists c, m' !! k = Some c /\ (l = true -> ch_open c = true).
Proof. intros A W. specialize (A k). rewrite W in A. destruct (m !! k) as [c|]; eexists; (split; [exact A|]); intros ->; cbn; [apply orb_true_r|done]. Qed.
Lemma any_wanted v4 v6 p (b : bool) : (if b then v6 else v4) = true -> family_wanted v4 v6 p (any_ep b p) = true.
Proof. intros E. unfold family_wanted, any_ep. cbn. rewrite !bool_decide_eq_true_2 by done. done. Qed.
Set Default Proof Using "Type".
Section Whole.
Context {rules arules : Type}.
Variables (any_netif no_netif : rules) (read_rules : ptree -> option rules) (accepts : rules -> rules -> netif -> bool).
Variables (any_addr no_addr loopback_only : arules) (read_arules : ptree -> option arules).
Variables (make_v4 make_v6 make_ether : string -> option N).
Variable normal : string -> option string.
Variable parse_rule : ptree -> option (list string).
Notation fs := (@fs rules arules).
Notation udp_wants := (udp_wants any_netif no_netif read_rules make_v4 make_v6).
Notation tcp_wants := (tcp_wants any_addr no_addr loopback_only read_arules).
Notation ether_wants := (ether_wants any_netif no_netif read_rules make_ether).
Notation fs_valid := (fs_valid read_rules read_arules make_v4 make_v6 make_ether parse_rule).
Notation troubled := (troubled any_netif no_netif read_rules any_addr no_addr loopback_only read_arules make_v4 make_v6 make_ether normal).
Notation no_remotes := (no_remotes parse_rule).
Notation udp_section := (udp_section any_netif no_netif read_rules make_v4 make_v6).
Notation udp_config := (udp_config any_netif no_netif read_rules accepts make_v4 make_v6).
Notation tcp_section := (tcp_section any_addr no_addr loopback_only read_arules).
Notation tcp_config := (tcp_config any_addr no_addr loopback_only read_arules).
Notation ether_section := (ether_section any_netif no_netif read_rules make_ether).
Notation ether_config := (ether_config any_netif no_netif read_rules accepts make_ether).
Notation unix_config := (unix_config normal).
Notation process_config := (process_config any_netif no_netif read_rules accepts any_addr no_addr loopback_only read_arules make_v4 make_v6 make_ether normal parse_rule).
Notation udp_after := (udp_after any_netif no_netif read_rules accepts make_v4 make_v6).
Notation tcp_after := (tcp_after any_addr no_addr loopback_only read_arules).
Notation ether_after := (ether_after any_netif no_netif read_rules accepts make_ether).
Notation unix_after := (unix_after normal).


Notation run := (run any_netif no_netif read_rules accepts any_addr no_addr loopback_only read_arules make_v4 make_v6 make_ether normal parse_rule).
Notation step := (step any_netif no_netif read_rules accepts any_addr no_addr loopback_only read_arules make_v4 make_v6 make_ether normal parse_rule).
Notation fs_new := (fs_new any_netif no_netif any_addr no_addr).
Lemma mark_fun o m m' : mark_wanted o m -> mark_wanted o m' -> m = m'.
Proof. destruct o; cbn; congruence. Qed.
Lemma reload_ok t e (s s1 s2 : fs) ok :
  inv s -> process_config false t e s = (s1, true) -> process_config false t e s1 = (s2, ok) -> ok = true.
Proof.
  intros I E1 E2. assert (inv s1) as I1.
  { eapply (step_inv any_netif no_netif read_rules accepts any_addr no_addr loopback_only read_arules make_v4 make_v6 make_ether normal parse_rule s s1 (Config false t e)); [done|]. cbn [Fs_Model.step]. by rewrite E1. }
  pose proof I as (T & _). pose proof I1 as (T1 & _ & _ & _ & B1).
  apply real_spec in E1 as (F1 & G1); [|done]. destruct (proj1 F1 eq_refl) as (V & N & R). destruct (G1 eq_refl) as (_ & _ & mark & M & Ae & At & Au & Ax & Aw). clear F1 G1.
  apply real_spec in E2 as (F2 & _); [|done]. apply F2. split; [done|]. split.
  - intros [(c & k & W & Wk & B)|[(t' & c & v6 & Et & W & St)|[(c & v6 & W & St)|[(t' & path & Et & W & St)|(c & v6 & W & L & St)]]]].
    + destruct Ae as (c' & W' & _ & _ & CA & _). rewrite (ether_wants_fun _ _ _ _ _ _ _ W W') in *. destruct (wanted_after _ _ _ _ _ _ CA Wk) as (ch & Ec & O).
      destruct B as [(E & _)|(L & _ & B)]; [congruence|]. specialize (B _ Ec). rewrite (O L) in B. done.
    + rewrite Et in At. destruct At as (c' & W' & _ & _ & _ & _ & CA). apply (tcp_stuck_fun _ _ _ _ _ _ _ _ _ _ W W') in St. destruct St as (F & L & _ & O).
      destruct (wanted_after _ _ _ _ _ (any_ep v6 (tc_port c')) CA (any_wanted _ _ _ _ F)) as (ch & Ec & O'). specialize (O _ Ec). rewrite (O' L) in O. done.
    + destruct Au as (c' & W' & _ & _ & _ & _ & CA & _). rewrite (udp_wants_fun _ _ _ _ _ _ _ _ W W') in *. destruct St as (F & St).
      destruct (wanted_after _ _ _ _ _ (any_ep v6 (uc_port c')) CA (any_wanted _ _ _ _ F)) as (ch & Ec & O').
      destruct St as [(E & _)|(L & _ & O)]; [congruence|]. specialize (O _ Ec). rewrite (O' L) in O. done.
    + rewrite Et in Ax. destruct Ax as (_ & path' & p & W' & Np & CA & _). assert (path' = path) as -> by (unfold unix_wants in W, W'; congruence).
      destruct (St _ Np) as (U & _). apply U. destruct (wanted_after _ _ _ _ _ p CA) as (ch & Ec & O); [by apply bool_decide_eq_true_2|]. exists ch. split; [done|by apply O].
    + destruct Aw as (c' & W' & CA). rewrite (ws_wants_fun _ _ _ W W') in *. destruct St as (F & _ & O).
      destruct (wanted_after _ _ _ _ _ (any_ep v6 (wc_port c')) CA) as (ch & Ec & O'); [rewrite L; by apply any_wanted|]. specialize (O _ Ec). rewrite O' in O by done. done.
  - apply remotes_none in R; [|done]. intros t' x r sch Ht Hx Hr Hs. rewrite (R t' x r Ht Hx Hr) in Hs. by apply elem_of_nil in Hs.
Qed.
Lemma reload_same t e (s s1 s2 : fs) ok :
  inv s -> process_config false t e s = (s1, true) -> process_config false t e s1 = (s2, ok) -> same s1 s2.
Proof.
  intros I E1 E2. assert (ok = true) as -> by by eapply reload_ok.
  pose proof (step_inv any_netif no_netif read_rules accepts any_addr no_addr loopback_only read_arules make_v4 make_v6 make_ether normal parse_rule s s1 (Config false t e) I) as I1.
  cbn [Fs_Model.step] in I1. rewrite E1 in I1. specialize (I1 eq_refl).
  pose proof (step_inv any_netif no_netif read_rules accepts any_addr no_addr loopback_only read_arules make_v4 make_v6 make_ether normal parse_rule s1 s2 (Config false t e) I1) as I2.
  cbn [Fs_Model.step] in I2. rewrite E2 in I2. specialize (I2 eq_refl).
  pose proof I as (T & _). pose proof I1 as (T1 & _ & _ & _ & B1). destruct I2 as (_ & _ & _ & _ & B2).
  apply real_spec in E1 as (_ & G1); [|done]. destruct (G1 eq_refl) as (_ & _ & mark & M & Ae & At & Au & Ax & Aw). clear G1.
  apply real_spec in E2 as (_ & G1); [|done]. destruct (G1 eq_refl) as (_ & _ & mark' & M' & Ae' & At' & Au' & Ax' & Aw'). clear G1.
  rewrite (mark_fun _ _ _ M' M) in *. clear M M' mark'.
  (* Ethernet *)
  assert (e_chans (f_ether s2) = e_chans (f_ether s1) /\ e_active (f_ether s2) = e_active (f_ether s1) /\ e_faces (f_ether s2) = e_faces (f_ether s1) /\ e_conf (f_ether s2) = e_conf (f_ether s1) /\ e_schemes (f_ether s2) = e_schemes (f_ether s1)) as (P1 & P2 & P3 & P4 & P5).
  { destruct Ae as (c & W & C & S & CA & A & L & F & _). destruct Ae' as (c' & W' & C' & S' & CA' & A' & L' & F' & _). rewrite (ether_wants_fun _ _ _ _ _ _ _ W' W) in *.
    split; [by eapply chans_again|]. split.
    - apply set_eq. intros k. rewrite A'. split; [|by left]. intros [?|(Wk & Ll & _ & O)]; [done|]. destruct (wanted_after _ _ _ _ _ _ CA Wk) as (ch & Ec & O'). specialize (O _ Ec). rewrite (O' Ll) in O. done.
    - split; [by eapply faces_again|]. split; [by rewrite C, C'|]. apply set_eq. intros k. rewrite S'. split.
      + intros [[? _]|[-> Ee]]; [done|]. apply S. by right.
      + intros Hk. destruct (decide (k = "ether")) as [->|Hn]; [|by left]. apply S in Hk. destruct Hk as [[_ ?]|Hk]; [done|]. by right. }
  (* TCP *)
  assert (t_chans (f_tcp s2) = t_chans (f_tcp s1) /\ t_mark (f_tcp s2) = t_mark (f_tcp s1) /\ t_schemes (f_tcp s2) = t_schemes (f_tcp s1)) as (Q1 & Q2 & Q3).
  { destruct (pt_child "tcp" t) as [t'|]; [|destruct At as (-> & _); destruct At' as (-> & -> & _ & _ & ->); done].
    destruct At as (c & W & Mk & _ & _ & S & CA). destruct At' as (c' & W' & Mk' & _ & _ & S' & CA').
    destruct W as (A1 & A2 & A3 & A4 & _), W' as (D1 & D2 & D3 & D4 & _). rewrite A1 in D1; rewrite A2 in D2; rewrite A3 in D3; rewrite A4 in D4.
    injection D1 as D1. injection D2 as D2. injection D3 as D3. injection D4 as D4. rewrite <-D1, <-D2, <-D3, <-D4 in CA'. rewrite <-D3, <-D4 in S'.
    split; [by eapply chans_again|]. split; [by rewrite Mk, Mk'|]. apply set_eq. intros k. rewrite S'. split; [|by left]. intros [?|H]; [done|]. apply S. by right. }
  (* UDP *)
  assert (u_chans (f_udp s2) = u_chans (f_udp s1) /\ u_faces (f_udp s2) = u_faces (f_udp s1) /\ u_conf (f_udp s2) = u_conf (f_udp s1) /\ u_mark (f_udp s2) = u_mark (f_udp s1) /\ u_mtu (f_udp s2) = u_mtu (f_udp s1) /\ u_schemes (f_udp s2) = u_schemes (f_udp s1) /\ u_watch (f_udp s2) = u_watch (f_udp s1)) as (R1 & R2 & R3 & R4 & R5 & R6 & R7).
  { destruct Au as (c & W & C & Mk & Mt & S & CA & L & Wt & F & _). destruct Au' as (c' & W' & C' & Mk' & Mt' & S' & CA' & L' & Wt' & F' & _). rewrite (udp_wants_fun _ _ _ _ _ _ _ _ W' W) in *.
    pose proof (chans_again _ _ _ _ _ _ CA CA') as Ec. rewrite Ec in F'. split; [done|]. split; [by eapply faces_again|]. split; [by rewrite C, C'|]. split; [by rewrite Mk, Mk'|]. split; [by rewrite Mt, Mt'|]. split.
    - apply set_eq. intros k. rewrite S'. split; [|by left]. intros [?|H]; [done|]. apply S. by right.
    - apply set_eq. intros k. rewrite Wt'. split; [|by left]. intros [?|H]; [done|]. apply Wt. by right. }
  (* Unix *)
  assert (x_chans (f_unix s2) = x_chans (f_unix s1) /\ x_mark (f_unix s2) = x_mark (f_unix s1) /\ x_removed (f_unix s2) = x_removed (f_unix s1)) as (X1 & X2 & X3).
  { destruct (pt_child "unix" t) as [t'|]; [|destruct Ax as (-> & _); destruct Ax' as (-> & -> & ->); done].
    destruct Ax as (Mk & path & p & W & Np & CA & _). destruct Ax' as (Mk' & path' & p' & W' & Np' & CA' & Rm & _).
    assert (path' = path) as -> by (unfold unix_wants in W, W'; congruence). assert (p' = p) as -> by congruence.
    split; [by eapply chans_again|]. split; [by rewrite Mk, Mk'|]. apply Rm. destruct (wanted_after _ _ _ _ _ p CA) as (ch & Ec & O); [by apply bool_decide_eq_true_2|]. exists ch. split; [done|by apply O]. }
  assert (w_chans (f_ws s2) = w_chans (f_ws s1)) as Y.
  { destruct Aw as (c & W & CA). destruct Aw' as (c' & W' & CA'). rewrite (ws_wants_fun _ _ _ W' W) in *. by eapply chans_again. }
  unfold same. rewrite P1, P2, P3, P4, P5, Q1, Q2, Q3, R1, R2, R3, R4, R5, R6, R7, X1, X2, X3, Y.
  do 19 (split; [done|]). apply map_eq. intros k. destruct B1 as (_ & _ & _ & B1), B2 as (_ & _ & _ & B2).
  assert (forall id, provided s2 k id <-> provided s1 k id) as Ep by (intros id; unfold provided; by rewrite P5, Q3, R6).
  destruct (f_by s2 !! k) as [id|] eqn:E2; [apply B2, Ep, B1 in E2; done|]. destruct (f_by s1 !! k) as [id|] eqn:E1; [|done]. apply B1, Ep, B2 in E1. congruence.
Qed.

(** ** What no event changes *)
(** a capture is started only when its channel begins to listen *)
Definition starts (s s' : fs) : Prop :=
  e_active (f_ether s) ⊆ e_active (f_ether s') /\
  forall k ch, k ∈ e_active (f_ether s') -> e_chans (f_ether s) !! k = Some ch -> ch_open ch = true -> k ∈ e_active (f_ether s).
Lemma step_kept (s s' : fs) v : inv s -> step s v = Some s' -> all_kept s s' /\ starts s s'.
Proof.
  intros (T & _).
  assert (all_kept s s /\ starts s s) as Refl by (split; [repeat split; apply kept_refl|split; [done|]; intros; done]).
  destruct v as [dry t e|n e|n e|ep|ep|key|key]; cbn [Fs_Model.step].
  - destruct (process_config dry t e s) as [x ok] eqn:E. destruct ok; [|done]. intros [= <-]. destruct dry.
    + apply dry_spec in E as (_ & (E1 & E2 & E3 & (b1 & E4) & (b2 & E5) & (b3 & E6)) & _). unfold all_kept, starts. rewrite E1, E2, E4, E5, E6. exact Refl.
    + apply real_spec in E as (_ & G); [|done]. destruct (G eq_refl) as (_ & _ & mark & _ & Ae & At & Au & Ax & Aw).
      destruct Ae as (c & _ & _ & _ & CA & A & _). split.
      * split; [by eapply kept_after|]. split; [destruct (pt_child "tcp" t); [destruct At as (c' & _ & _ & _ & _ & _ & CA'); by eapply kept_after|destruct At as (_ & -> & _); apply kept_refl]|].
        split; [destruct Au as (c' & _ & _ & _ & _ & _ & CA' & _); by eapply kept_after|].
        split; [destruct Ax as (_ & Ax), (pt_child "unix" t); [destruct Ax as (? & ? & _ & _ & CA' & _); by eapply kept_after|destruct Ax as (-> & _); apply kept_refl]|].
        destruct Aw as (c' & _ & CA'). by eapply kept_after.
      * split; [intros k Hk; apply A; by left|]. intros k ch Hk Hc Ho. apply A in Hk as [?|(_ & _ & _ & O)]; [done|]. specialize (O _ Hc). congruence.
  - destruct (ether_chan e n (f_ether s)) as [x ok] eqn:E. destruct ok; [|done]. pose proof (ether_netif_spec accepts e n _ _ T E) as H. cbn zeta in H.
    destruct (ether_mface accepts e n x) as [x' r]. cbn [fst] in H. destruct H as (T' & Ce & Se & Le & CA & A & Fe & Oe).
    pose proof (udp_netif_spec accepts e n (f_udp s)) as H. cbn zeta in H. destruct (udp_netif accepts e n (f_udp s)) as [u k]. cbn [fst] in H |- *.
    destruct H as (_ & _ & Cu & _). intros [= <-]. unfold all_kept, starts. cbn [set_udp set_ether f_ether f_tcp f_udp f_unix f_ws f_by].
    rewrite Cu. split.
    + split; [by eapply kept_after|]. apply Refl.
    + split; [intros k' Hk; apply A; by left|]. intros k' ch Hk Hc Ho. apply A in Hk as [?|(_ & _ & _ & O)]; [done|]. specialize (O _ Hc). congruence.
  - destruct (decide _); [|intros [= <-]; done].
    pose proof (udp_netif_spec accepts e n (f_udp s)) as H. cbn zeta in H. destruct (udp_netif accepts e n (f_udp s)) as [u k]. cbn [fst] in H |- *.
    destruct H as (_ & _ & Cu & _). intros [= <-]. unfold all_kept, starts. cbn [set_udp f_ether f_tcp f_udp f_unix f_ws f_by]. rewrite Cu. exact Refl.
  - intros [= <-]. exact Refl.
  - destruct (u_faces (f_udp s) !! ep) as [f|]; [|done]. destruct (mf_closing f); [|done]. intros [= <-]. exact Refl.
  - intros [= <-]. exact Refl.
  - destruct (e_faces (f_ether s) !! key) as [f|]; [|done]. destruct (mf_closing f); [|done]. intros [= <-]. exact Refl.
Qed.
Lemma run_kept l : forall s s' : fs, inv s -> run s l = Some s' -> all_kept s s' /\ starts s s'.
Proof.
  induction l as [|v l IH]; intros s s' I; cbn [Fs_Model.run].
  { intros [= <-]. split; [repeat split; apply kept_refl|split; [done|]; intros; done]. }
  destruct (step s v) as [s1|] eqn:E; [|done]. intros R. destruct (step_kept _ _ _ I E) as (K1 & S1).
  destruct (IH s1 s') as (K2 & S2); [by eapply step_inv|done|]. destruct K1 as (A1 & A2 & A3 & A4 & A5), K2 as (B1 & B2 & B3 & B4 & B5). split.
  - repeat split; by eapply kept_trans.
  - destruct S1 as (L1 & S1), S2 as (L2 & S2). split; [by etrans|]. intros k ch Hk Hc Ho. destruct (A1 _ _ Hc) as (o & Hc1 & Ho1). apply (S1 k ch); [|done..]. by apply (S2 k _ Hk Hc1), Ho1.
Qed.
End Whole.
