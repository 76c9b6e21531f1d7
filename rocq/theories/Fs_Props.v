(** C76: the section face_system of the configuration file; channels, multicast faces, and schemes that follow from it.

    The daemon carries out what the file and the network interfaces ask for: a dry run tells whether the file is valid; a
    real run gives the channels and multicast faces that are wanted, and closes the others; later interfaces and addresses
    are dealt with as if they had been there. *)
From Coq Require Import String Ascii.
From stdpp Require Import gmap strings.
From Verif Require Import Lib Cfg_Model Fs_Model Fs_Spec Fs_Read Fs_Proof Fs_Hist Fs_Run Fs_Reload.
Open Scope string_scope.
Open Scope list_scope.
Set Default Proof Using "Type".
Section Whole.
Context {rules arules : Type}.
Variables (any_netif no_netif : rules) (read_rules : ptree -> option rules) (accepts : rules -> rules -> netif -> bool).
Variables (any_addr no_addr loopback_only : arules) (read_arules : ptree -> option arules).
Variables (make_v4 make_v6 make_ether : string -> option N).
Variable normal : string -> option string.
Variable parse_rule : ptree -> option (list string).
Notation fs := (@fs rules arules).
Notation udp_wants := (udp_wants any_netif no_netif read_rules make_v4 make_v6).
Notation tcp_wants := (tcp_wants any_addr no_addr loopback_only read_arules).
Notation ether_wants := (ether_wants any_netif no_netif read_rules make_ether).
Notation fs_valid := (fs_valid read_rules read_arules make_v4 make_v6 make_ether parse_rule).
Notation troubled := (troubled any_netif no_netif read_rules any_addr no_addr loopback_only read_arules make_v4 make_v6 make_ether normal).
Notation no_remotes := (no_remotes parse_rule).
Notation udp_section := (udp_section any_netif no_netif read_rules make_v4 make_v6).
Notation udp_config := (udp_config any_netif no_netif read_rules accepts make_v4 make_v6).
Notation tcp_section := (tcp_section any_addr no_addr loopback_only read_arules).
Notation tcp_config := (tcp_config any_addr no_addr loopback_only read_arules).
Notation ether_section := (ether_section any_netif no_netif read_rules make_ether).
Notation ether_config := (ether_config any_netif no_netif read_rules accepts make_ether).
Notation unix_config := (unix_config normal).
Notation process_config := (process_config any_netif no_netif read_rules accepts any_addr no_addr loopback_only read_arules make_v4 make_v6 make_ether normal parse_rule).
Notation udp_after := (udp_after any_netif no_netif read_rules accepts make_v4 make_v6).
Notation tcp_after := (tcp_after any_addr no_addr loopback_only read_arules).
Notation ether_after := (ether_after any_netif no_netif read_rules accepts make_ether).
Notation unix_after := (unix_after normal).


Notation run := (run any_netif no_netif read_rules accepts any_addr no_addr loopback_only read_arules make_v4 make_v6 make_ether normal parse_rule).
Notation step := (step any_netif no_netif read_rules accepts any_addr no_addr loopback_only read_arules make_v4 make_v6 make_ether normal parse_rule).
Notation fs_new := (fs_new any_netif no_netif any_addr no_addr).
(** a state of a daemon that is still running *)
Definition reached (s : fs) : Prop := exists l, run fs_new l = Some s.
Lemma reached_inv s : reached s -> inv s.
Proof. intros (l & R). eapply run_inv; [apply new_inv|exact R]. Qed.

(** ** Options *)
(** The options of a section: known ones with valid values, and the values they give. *)
Theorem C76_udp_options o :
  match udp_section o with
  | Some c => if_there (udp_valid read_rules make_v4 make_v6) o /\ udp_wants o c
  | None => ~ if_there (udp_valid read_rules make_v4 make_v6) o
  end.
Proof. apply udp_section_spec. Qed.
Theorem C76_tcp_options t :
  match tcp_section t with Some c => tcp_valid read_arules t /\ tcp_wants t c | None => ~ tcp_valid read_arules t end.
Proof. apply tcp_section_spec. Qed.
Theorem C76_ether_options o :
  match ether_section o with
  | Some c => if_there (ether_valid read_rules make_ether) o /\ ether_wants o c
  | None => ~ if_there (ether_valid read_rules make_ether) o
  end.
Proof. apply ether_section_spec. Qed.
Theorem C76_unix_options t : match unix_section t with Some p => unix_valid t /\ unix_wants t p | None => ~ unix_valid t end.
Proof. apply unix_section_spec. Qed.
Theorem C76_ws_options o : match ws_section o with Some c => if_there ws_valid o /\ ws_wants o c | None => ~ if_there ws_valid o end.
Proof. apply ws_section_spec. Qed.
Theorem C76_general_options o : match general_section o with Some m => if_there general_valid o /\ mark_wanted o m | None => ~ if_there general_valid o end.
Proof. apply general_section_spec. Qed.

(** ** Each kind of face *)
(** In each case: it works exactly if the section is valid and the system lets the channels be made; then the channels and faces are those that are wanted. *)
Theorem C76_ether e o (s : fs) x ok : reached s -> ether_config false o e (f_ether s) = (x, ok) ->
  (ok = true <-> if_there (ether_valid read_rules make_ether) o /\ ~ exists c k, ether_wants o c /\ ether_wanted c (en_netifs e) k = true /\ ether_bad c e (e_chans (f_ether s)) k) /\
  (ok = true -> ether_after o e (f_ether s) x).
Proof. intros I E. apply reached_inv in I as (T & _). apply ether_turn in E as (F & A); [|done]. split; [done|]. intros Hok. by apply A. Qed.
Theorem C76_tcp mark o e s s' ok : tcp_config false mark o e s = (s', ok) ->
  (ok = true <-> if_there (tcp_valid read_arules) o /\ ~ exists t c v6, o = Some t /\ tcp_wants t c /\ tcp_stuck c e s v6) /\
  (ok = true -> tcp_after o mark s s').
Proof. apply tcp_turn. Qed.
Theorem C76_udp mark o e s s' ok : udp_config false mark o e s = (s', ok) ->
  (ok = true <-> if_there (udp_valid read_rules make_v4 make_v6) o /\ ~ exists c v6, udp_wants o c /\ udp_stuck c e s v6) /\
  (ok = true -> udp_after o mark e s s').
Proof. apply udp_turn. Qed.
Theorem C76_unix mark o e s s' ok : unix_config false mark o e s = (s', ok) ->
  (ok = true <-> if_there unix_valid o /\ ~ exists t path, o = Some t /\ unix_wants t path /\ forall p, normal path = Some p -> unix_stuck e s p) /\
  (ok = true -> unix_after o mark e s s').
Proof. apply unix_turn. Qed.
Theorem C76_ws o e s s' ok : ws_config false o e s = (s', ok) ->
  (ok = true <-> if_there ws_valid o /\ ~ exists c v6, ws_wants o c /\ wc_listen c = true /\ ws_stuck c e s v6) /\
  (ok = true -> ws_after o s s').
Proof. apply ws_turn. Qed.
(** The daemon removes a file only at the configured path, when it does not listen there itself, and when the file is a socket on which nobody answers. *)
Theorem C76_unix_removed dry mark o e s s' ok : unix_config dry mark o e s = (s', ok) ->
  x_removed s' = x_removed s \/
  exists p, x_removed s' = p :: x_removed s /\ en_file e p = Stale /\ ~ unix_open s p /\ exists t path, o = Some t /\ unix_wants t path /\ normal path = Some p.
Proof. apply unix_config_removed. Qed.

(** ** The whole section *)
(** A dry run succeeds exactly if the file is valid, and changes nothing but the wish for congestion marking. *)
Theorem C76_dry t e (s s' : fs) ok : process_config true t e s = (s', ok) ->
  (ok = true <-> fs_valid t) /\ but_mark s s' /\
  (ok = true -> exists m, mark_wanted (pt_child "general" t) m /\ t_mark (f_tcp s') = m /\ u_mark (f_udp s') = m /\ x_mark (f_unix s') = m).
Proof. apply dry_spec. Qed.
(** A real run succeeds exactly if the file is valid, has no rule for netdev-bound faces, and the system does not stand in the way; then every part is as wanted. *)
Theorem C76_process t e (s s' : fs) ok : reached s -> process_config false t e s = (s', ok) ->
  (ok = true <-> fs_valid t /\ ~ troubled t e s /\ no_remotes t) /\
  (ok = true -> exists mark, mark_wanted (pt_child "general" t) mark /\
      ether_after (pt_child "ether" t) e (f_ether s) (f_ether s') /\ tcp_after (pt_child "tcp" t) mark (f_tcp s) (f_tcp s') /\
      udp_after (pt_child "udp" t) mark e (f_udp s) (f_udp s') /\ unix_after (pt_child "unix" t) mark e (f_unix s) (f_unix s') /\
      ws_after (pt_child "websocket" t) (f_ws s) (f_ws s')).
Proof.
  intros I E. apply reached_inv in I. pose proof I as (T & _).
  pose proof (step_inv any_netif no_netif read_rules accepts any_addr no_addr loopback_only read_arules make_v4 make_v6 make_ether normal parse_rule s s' (Config false t e) I) as I1.
  cbn [Fs_Model.step] in I1. rewrite E in I1. apply real_spec in E as (F & G); [|done]. split.
  - split.
    + intros Hok. destruct (proj1 F Hok) as (V & N & R). rewrite Hok in I1. destruct (I1 eq_refl) as (_ & _ & _ & _ & B). split; [done|]. split; [done|]. by apply (remotes_none parse_rule t s' B).
    + intros (V & N & R). apply F. split; [done|]. split; [done|]. intros t' x r sch Ht Hx Hr Hs. rewrite (R t' x r Ht Hx Hr) in Hs. by apply elem_of_nil in Hs.
  - intros Hok. by apply G.
Qed.
(** When the same file is processed again with the same interfaces, it succeeds and nothing changes. *)
Theorem C76_reload t e (s s1 s2 : fs) ok : reached s -> process_config false t e s = (s1, true) -> process_config false t e s1 = (s2, ok) -> ok = true /\ same s1 s2.
Proof. intros I E1 E2. apply reached_inv in I. split; [by eapply reload_ok|by eapply reload_same]. Qed.

(** ** Histories *)
(** The table of schemes gives each scheme to the factory that provides it; no scheme is provided twice. *)
Theorem C76_schemes (s : fs) : reached s ->
  (forall k id, f_by s !! k = Some id <-> provided s k id) /\
  e_schemes (f_ether s) ⊆ {[ "ether" ]} /\ t_schemes (f_tcp s) ⊆ {[ "tcp"; "tcp4"; "tcp6" ]} /\ u_schemes (f_udp s) ⊆ {[ "udp"; "udp4"; "udp6" ]}.
Proof. intros I. apply reached_inv in I as (_ & _ & _ & _ & A & B & C & D). done. Qed.
(** Groups of multicast faces are multicast addresses: the assertions of createMulticastFace hold. *)
Theorem C76_groups (s : fs) : reached s ->
  (224 * 2 ^ 24 <= uc_group (u_conf (f_udp s)) < 240 * 2 ^ 24)%N /\ (255 * 2 ^ 120 <= uc_group6 (u_conf (f_udp s)) < 256 * 2 ^ 120)%N /\
  N.testbit (ec_group (e_conf (f_ether s))) 40 = true.
Proof. intros I. by apply reached_inv in I as (_ & _ & _ & G & _). Qed.
(** No face is in two places. *)
Theorem C76_numbers (s : fs) : reached s -> numbered (u_next (f_udp s)) (u_faces (f_udp s)) /\ numbered (e_next (f_ether s)) (e_faces (f_ether s)).
Proof. intros I. by apply reached_inv in I as (_ & ? & ? & _). Qed.
(** An interface that appears gets the channel and the faces it would have got from a configuration; no other face is touched. *)
Theorem C76_netif (s : fs) n e : reached s ->
  let c := e_conf (f_ether s) in
  let u := u_conf (f_udp s) in
  match step s (NetifAdded n e) with
  | None => ether_wanted c [n] (ni_name n) = true /\ ether_bad c e (e_chans (f_ether s)) (ni_name n)
  | Some s' =>
      ~ (ether_wanted c [n] (ni_name n) = true /\ ether_bad c e (e_chans (f_ether s)) (ni_name n)) /\
      f_tcp s' = f_tcp s /\ f_unix s' = f_unix s /\ f_ws s' = f_ws s /\ f_by s' = f_by s /\
      e_conf (f_ether s') = c /\ e_schemes (f_ether s') = e_schemes (f_ether s) /\
      chans_after (ether_wanted c [n]) (ec_listen c) (Chan false (ec_idle c) 0 false) (e_chans (f_ether s)) (e_chans (f_ether s')) /\
      (forall k, k ∈ e_active (f_ether s') <-> k ∈ e_active (f_ether s) \/ (ether_wanted c [n] k = true /\ ether_starts c e (e_chans (f_ether s)) k)) /\
      faces_after false (ether_wishes accepts c e [n]) (ec_adhoc c) false (e_next (f_ether s)) (e_next (f_ether s')) (e_faces (f_ether s)) (e_faces (f_ether s')) /\
      u_conf (f_udp s') = u /\ u_mark (f_udp s') = u_mark (f_udp s) /\ u_mtu (f_udp s') = u_mtu (f_udp s) /\ u_chans (f_udp s') = u_chans (f_udp s) /\ u_schemes (f_udp s') = u_schemes (f_udp s) /\
      (forall i, i ∈ u_watch (f_udp s') <-> i ∈ u_watch (f_udp s) \/ (watched accepts u n /\ ni_index n = i)) /\
      faces_after false (udp_wishes accepts u (u_chans (f_udp s)) e [n]) (uc_adhoc u) (u_mark (f_udp s)) (u_next (f_udp s)) (u_next (f_udp s')) (u_faces (f_udp s)) (u_faces (f_udp s'))
  end.
Proof.
  intros I. apply reached_inv in I as (T & _). cbn zeta. cbn [Fs_Model.step].
  destruct (ether_chan e n (f_ether s)) as [x ok] eqn:E. pose proof E as E'. apply ether_chan_spec in E' as (_ & _ & _ & _ & B & _). destruct ok; [|by apply B].
  pose proof (ether_netif_spec accepts e n _ _ T E) as H. cbn zeta in H.
  destruct (ether_mface accepts e n x) as [x' r]. cbn [fst] in H. destruct H as (T' & Ce & Se & Le & CA & A & Fe & Oe).
  pose proof (udp_netif_spec accepts e n (f_udp s)) as H. cbn zeta in H. destruct (udp_netif accepts e n (f_udp s)) as [u k]. cbn [fst] in H |- *.
  destruct H as (U1 & U2 & U3 & U4 & U5 & _ & U6 & U7 & _). cbn [set_udp set_ether f_ether f_tcp f_udp f_unix f_ws f_by].
  split; [intros H; apply B in H; done|]. done.
Qed.
(** An address that is added to an interface counts if the interface had none of use before; no other face is touched. *)
Theorem C76_address (s : fs) n e : reached s ->
  let u := u_conf (f_udp s) in
  exists s', step s (AddressAdded n e) = Some s' /\
    f_ether s' = f_ether s /\ f_tcp s' = f_tcp s /\ f_unix s' = f_unix s /\ f_ws s' = f_ws s /\ f_by s' = f_by s /\
    u_conf (f_udp s') = u /\ u_chans (f_udp s') = u_chans (f_udp s) /\ u_schemes (f_udp s') = u_schemes (f_udp s) /\
    (ni_index n ∈ u_watch (f_udp s) ->
       faces_after false (udp_wishes accepts u (u_chans (f_udp s)) e [n]) (uc_adhoc u) (u_mark (f_udp s)) (u_next (f_udp s)) (u_next (f_udp s')) (u_faces (f_udp s)) (u_faces (f_udp s'))) /\
    (ni_index n ∉ u_watch (f_udp s) -> f_udp s' = f_udp s).
Proof.
  intros _. cbn zeta. cbn [Fs_Model.step]. destruct (decide _) as [Hd|Hd].
  - pose proof (udp_netif_spec accepts e n (f_udp s)) as H. cbn zeta in H. destruct (udp_netif accepts e n (f_udp s)) as [u k]. cbn [fst] in H |- *.
    destruct H as (U1 & U2 & U3 & U4 & U5 & _ & U6 & U7 & _). eexists. split; [reflexivity|]. cbn [set_udp f_ether f_tcp f_udp f_unix f_ws f_by]. do 8 (split; [done|]). split; [done|]. by intros ?.
  - eexists. split; [reflexivity|]. do 8 (split; [done|]). split; [by intros ?|done].
Qed.
(** Channels stay as they are, whatever is configured later: congestion marking, timeouts, and MTU are those of the time they were made. *)
Theorem C76_channels (s s' : fs) l : reached s -> run s l = Some s' -> all_kept s s'.
Proof. intros I R. apply reached_inv in I. by destruct (run_kept any_netif no_netif read_rules accepts any_addr no_addr loopback_only read_arules make_v4 make_v6 make_ether normal parse_rule l s s' I R). Qed.
(** A capture on an Ethernet channel whose activation failed is never tried again. *)
Theorem C76_ether_stuck (s s' : fs) l k ch : reached s -> e_chans (f_ether s) !! k = Some ch -> ch_open ch = true -> k ∉ e_active (f_ether s) ->
  run s l = Some s' -> k ∉ e_active (f_ether s').
Proof.
  intros I Hc Ho Ha R Hk. apply reached_inv in I. destruct (run_kept any_netif no_netif read_rules accepts any_addr no_addr loopback_only read_arules make_v4 make_v6 make_ether normal parse_rule l s s' I R) as (_ & _ & S).
  apply Ha. by apply (S k ch).
Qed.
(** A rule for netdev-bound faces is valid, and makes every real run fail: no factory provides such faces. *)
Theorem C76_netdev t t' x e (s s' : fs) ok :
  (forall t r, parse_rule t = Some r -> r <> []) -> reached s ->
  pt_child "netdev_bound" t = Some t' -> x ∈ pt_children t' -> process_config false t e s = (s', ok) -> ok = false.
Proof.
  intros H I Et Hx E. apply C76_process in E as (F & _); [|done]. destruct ok; [|done]. destruct (proj1 F eq_refl) as (V & _ & R).
  destruct V as (_ & _ & _ & _ & _ & _ & _ & _ & V). rewrite Et in V. cbn in V. unfold netdev_valid, known in V. rewrite forallb_forall in V.
  specialize (V x (proj1 (elem_of_list_In _ _) Hx)). cbn in V. rewrite orb_false_r in V. apply andb_true_iff in V as [_ V]. unfold valid in V.
  destruct (parse_rule (snd x)) as [r|] eqn:Er; [|done]. destruct (H _ _ Er). by apply (R t' x r Et Hx Er).
Qed.
End Whole.

(** * Cases *)
(** a host with one Ethernet interface, which has an IPv4 address; two IPv4 groups are known *)
Definition x_v4 (s : string) : option N := if String.eqb s "224.0.23.170" then Some (224 * 2 ^ 24 + 23 * 2 ^ 8 + 170)%N else if String.eqb s "239.0.0.1" then Some (239 * 2 ^ 24 + 1)%N else if String.eqb s "10.0.0.1" then Some (10 * 2 ^ 24 + 1)%N else None.
Definition x_process := process_config tt tt (fun _ => Some tt) (fun _ _ _ => true) tt tt tt (fun _ => Some tt) x_v4 (fun _ => None) (fun _ => None) Some (fun t => Some [pt_value t]).
Definition x_run := run tt tt (fun _ => Some tt) (fun _ _ _ => true) tt tt tt (fun _ => Some tt) x_v4 (fun _ => None) (fun _ => None) Some (fun t => Some [pt_value t]).
Definition x_step := step tt tt (fun _ => Some tt) (fun _ _ _ => true) tt tt tt (fun _ => Some tt) x_v4 (fun _ => None) (fun _ => None) Some (fun t => Some [pt_value t]).
Definition x_new := fs_new tt tt tt tt.
Definition x_reached (s : fs) : Prop := reached tt tt (fun _ => Some tt) (fun _ _ _ => true) tt tt tt (fun _ => Some tt) x_v4 (fun _ => None) (fun _ => None) Some (fun t => Some [pt_value t]) s.
Definition x_udp_wants := udp_wants tt tt (fun _ => Some tt) x_v4 (fun _ => None).
Definition x_a4 : ip := Ip false (10 * 2 ^ 24 + 1) 0.
Definition x_a6 : ip := Ip true (0xfe80 * 2 ^ 112 + 1) 2.
Definition x_if (l : list (ip * bool)) : netif := Netif 2 "eth0" true false true true 77 l.
Definition x_env (l : list netif) (p : pcap) (f : file) : env := Env l (fun _ => Bound) (fun _ => Bound) (fun _ => Bound) (fun _ => true) (fun _ => f) (fun _ => Bound) (fun _ => true) (fun _ => p) (fun _ _ => true) (fun _ => true).
Definition x_leaf (s : string) : ptree := PTree s [].
Definition x_file (group mark : string) (more : list (string * ptree)) : ptree :=
  PTree "" ([("general", PTree "" [("enable_congestion_marking", x_leaf mark)]); ("ether", PTree "" []); ("tcp", PTree "" [("port", x_leaf "7000")]);
             ("udp", PTree "" [("mcast_group", x_leaf group); ("idle_timeout", x_leaf "30")]); ("unix", PTree "" []); ("websocket", PTree "" [("enable_v6", x_leaf "no")])] ++ more).
Definition x_t := x_file "224.0.23.170" "yes" [].
Definition x_e := x_env [x_if [(x_a4, true)]] Captures Stale.
Definition x_view (s : fs (rules := unit) (arules := unit)) :=
  (t_chans (f_tcp s) !! any_ep false 7000, u_chans (f_udp s) !! any_ep true 6363, u_faces (f_udp s) !! Lep x_a4 56363, e_faces (f_ether s) !! ("eth0", 0x01005E0017AA%N),
   x_removed (f_unix s), map (fun k => f_by s !! k) ["udp4"; "tcp6"; "ether"; "unix"]).
(** the daemon starts; the old socket file goes; every kind of face is there *)
Example C76_start :
  match x_run x_new [Config true x_t x_e; Config false x_t x_e] with
  | Some s => x_view s = (Some (Chan true 0 0 true), Some (Chan true 30 8800 true), Some (MFace (224 * 2 ^ 24 + 23 * 2 ^ 8 + 170) 0 false true 0 false), Some (MFace 0x01005E0017AA 0 false false 0 false),
                          ["/run/nfd/nfd.sock"], [Some "udp"; Some "tcp"; Some "ether"; None])
  | None => False
  end.
Proof. by vm_compute. Qed.
(** it succeeds, so the file is valid and nothing stands in the way *)
Example C76_start_ok : snd (x_process false x_t x_e x_new) = true /\ snd (x_process true x_t x_e x_new) = true.
Proof. split; by vm_compute. Qed.
(** a file with a wrong group, with an unknown section, with a section twice is not valid; a socket that somebody answers on is left alone *)
Example C76_bad :
  snd (x_process true (x_file "10.0.0.1" "yes" []) x_e x_new) = false /\ snd (x_process true (x_file "239.0.0.1" "yes" [("sctp", PTree "" [])]) x_e x_new) = false /\
  snd (x_process true (x_file "239.0.0.1" "yes" [("udp", PTree "" [])]) x_e x_new) = false /\
  (let (s, ok) := x_process false x_t (x_env [] Captures Answered) x_new in (x_removed (f_unix s), ok)) = ([], false).
Proof. by vm_compute. Qed.
(** an interface appears later, then an address *)
Example C76_later :
  match x_run x_new [Config false x_t (x_env [] Captures Nothing); NetifAdded (x_if []) x_e; AddressAdded (x_if [(x_a4, true)]) x_e] with
  | Some s => x_view s = (Some (Chan true 0 0 true), Some (Chan true 30 8800 true), Some (MFace (224 * 2 ^ 24 + 23 * 2 ^ 8 + 170) 0 false true 0 false), Some (MFace 0x01005E0017AA 0 false false 0 false),
                          [], [Some "udp"; Some "tcp"; Some "ether"; None])
  | None => False
  end.
Proof. by vm_compute. Qed.
(** the reload of a changed file; multicast is switched off *)
Example C76_off :
  match x_run x_new [Config false x_t x_e; Config false (PTree "" [("udp", PTree "" [("mcast", x_leaf "no"); ("idle_timeout", x_leaf "99")])]) x_e] with
  | Some s => x_view s = (Some (Chan true 0 0 true), Some (Chan true 30 8800 true), Some (MFace (224 * 2 ^ 24 + 23 * 2 ^ 8 + 170) 0 false true 0 true), Some (MFace 0x01005E0017AA 0 false false 0 true),
                          ["/run/nfd/nfd.sock"], [Some "udp"; Some "tcp"; None; None])
  | None => False
  end.
Proof. by vm_compute. Qed.

(** * What does not hold *)
(** After a reload that changes the multicast group, the interface has no face for the new group: the old face, at the same place, is only closed. *)
Theorem C76_group_refuted :
  ~ (forall s t e s' c n a, x_reached s -> x_process false t e s = (s', true) -> x_udp_wants (pt_child "udp" t) c ->
      n ∈ en_netifs e -> udp_fit (fun _ _ _ => true) c n = true -> a ∈ usable false n -> en_mcast e n a = true -> u_chans (f_udp s') !! Lep a (uc_gport c) = None ->
      exists f, u_faces (f_udp s') !! Lep a (uc_gport c) = Some f /\ mf_group f = uc_group c).
Proof.
  intros H. set (o := x_run x_new [Config false x_t x_e]). set (t2 := x_file "239.0.0.1" "yes" []).
  assert (E : match o with Some s => let (s', ok) := x_process false t2 x_e s in (ok, option_map mf_group (u_faces (f_udp s') !! Lep x_a4 56363), u_chans (f_udp s') !! Lep x_a4 56363) | None => (false, None, None) end
              = (true, Some (224 * 2 ^ 24 + 23 * 2 ^ 8 + 170)%N, None)) by by vm_compute.
  destruct o as [s|] eqn:Eo; [|done]. destruct (x_process false t2 x_e s) as [s' ok] eqn:Ep. injection E as Eok Ef Ec. subst ok.
  destruct (udp_section tt tt (fun _ => Some tt) x_v4 (fun _ => None) (pt_child "udp" t2)) as [c|] eqn:Es; [|by vm_compute in Es].
  pose proof (C76_udp_options tt tt (fun _ => Some tt) x_v4 (fun _ => None) (pt_child "udp" t2)) as W. rewrite Es in W. destruct W as (_ & W).
  vm_compute in Es. injection Es as Es.
  assert (uc_gport c = 56363%N) as G by by rewrite <-Es. assert (uc_group c = (239 * 2 ^ 24 + 1)%N) as G' by by rewrite <-Es.
  destruct (H s t2 x_e s' c (x_if [(x_a4, true)]) x_a4) as (f & Hf & Hg); [by eexists|done|done|left|by rewrite <-Es|left|done|by rewrite G|].
  rewrite G in Hf. rewrite Hf in Ef. cbn in Ef. rewrite Hg, G' in Ef. by vm_compute in Ef.
Qed.
(** An interface that has an address of one family when it is looked at gets no face for an address of the other family that is added later. *)
Theorem C76_address_refuted :
  ~ (forall s n e s' a, x_reached s -> x_step s (AddressAdded n e) = Some s' -> udp_fit (fun _ _ _ => true) (u_conf (f_udp s)) n = true ->
      a ∈ usable true n -> en_mcast e n a = true -> u_chans (f_udp s) !! Lep a (uc_gport6 (u_conf (f_udp s))) = None ->
      exists f, u_faces (f_udp s') !! Lep a (uc_gport6 (u_conf (f_udp s))) = Some f).
Proof.
  intros H. set (o := x_run x_new [Config false x_t x_e]). set (n := x_if [(x_a4, true); (x_a6, true)]). set (e := x_env [n] Captures Nothing).
  assert (E : match o with
              | Some s => match x_step s (AddressAdded n e) with
                          | Some s' => (true, uc_gport6 (u_conf (f_udp s)), u_faces (f_udp s') !! Lep x_a6 56363, u_chans (f_udp s) !! Lep x_a6 56363, udp_fit (fun _ _ _ => true) (u_conf (f_udp s)) n)
                          | None => (false, 0%N, None, None, false) end
              | None => (false, 0%N, None, None, false) end = (true, 56363%N, None, None, true)) by by vm_compute.
  destruct o as [s|] eqn:Eo; [|done]. destruct (x_step s (AddressAdded n e)) as [s'|] eqn:Es; [|done]. injection E as Eg Ef Ec Eu.
  destruct (H s n e s' x_a6) as (f & Hf); [by eexists|done|done|left|done|by rewrite Eg|]. rewrite Eg in Hf. congruence.
Qed.
(** A dry run is not without effect: faces made after it follow its wish for congestion marking. *)
Theorem C76_dry_refuted :
  ~ (forall s t e s' ok, x_reached s -> x_process true t e s = (s', ok) -> u_mark (f_udp s') = u_mark (f_udp s)).
Proof.
  intros H. set (o := x_run x_new [Config false x_t x_e]). set (t2 := x_file "239.0.0.1" "no" []).
  assert (E : match o with Some s => (true, u_mark (f_udp s), u_mark (f_udp (fst (x_process true t2 x_e s)))) | None => (false, false, false) end = (true, true, false)) by by vm_compute.
  destruct o as [s|] eqn:Eo; [|done]. destruct (x_process true t2 x_e s) as [s' ok] eqn:Ep. injection E as E1 E2. cbn in E2.
  rewrite (H s t2 x_e s' ok) in E2; [congruence|by eexists|done].
Qed.
(** A file that a dry run accepts may still be refused when nothing in the system stands in the way. *)
Theorem C76_netdev_refuted :
  ~ (forall s t e s' ok, x_reached s -> snd (x_process true t e s) = true ->
      ~ troubled tt tt (fun _ => Some tt) tt tt tt (fun _ => Some tt) x_v4 (fun _ => None) (fun _ => None) Some t e s ->
      x_process false t e s = (s', ok) -> ok = true).
Proof.
  intros H. set (t2 := x_file "239.0.0.1" "no" [("netdev_bound", PTree "" [("rule", x_leaf "udp4")])]). set (t1 := x_file "239.0.0.1" "no" []).
  assert (E1 : snd (x_process true t2 x_e x_new) = true) by by vm_compute.
  assert (E2 : snd (x_process false t2 x_e x_new) = false) by by vm_compute.
  assert (E3 : snd (x_process false t1 x_e x_new) = true) by by vm_compute.
  assert (x_reached x_new) as I by by exists [].
  destruct (x_process false t1 x_e x_new) as [s1 ok1] eqn:Ep1. cbn in E3. subst ok1. apply C76_process in Ep1 as (F & _); [|done]. destruct (proj1 F eq_refl) as (_ & N & _).
  destruct (x_process false t2 x_e x_new) as [s2 ok2] eqn:Ep2. cbn in E2. subst ok2.
  assert (false = true); [|done]. apply (H x_new t2 x_e s2 false I E1); [|done]. exact N.
Qed.
(** A file that is refused may have been carried out in part. *)
Theorem C76_atomic_refuted :
  ~ (forall s t e s', x_reached s -> x_process false t e s = (s', false) -> u_faces (f_udp s') = u_faces (f_udp s) /\ t_chans (f_tcp s') = t_chans (f_tcp s)).
Proof.
  intros H. set (t2 := x_file "239.0.0.1" "no" [("sctp", PTree "" [])]).
  assert (E : (let (s', ok) := x_process false t2 x_e x_new in (ok, option_map ch_open (t_chans (f_tcp s') !! any_ep false 7000))) = (false, Some true)) by by vm_compute.
  destruct (x_process false t2 x_e x_new) as [s' ok] eqn:Ep. injection E as -> E. destruct (H x_new t2 x_e s') as (_ & Ht); [by exists []|done|]. rewrite Ht in E. by vm_compute in E.
Qed.
(** An Ethernet channel that should listen, and says it does, may be deaf; by C76_ether_stuck it stays so. *)
Theorem C76_listening_refuted :
  ~ (forall s k ch, x_reached s -> e_chans (f_ether s) !! k = Some ch -> ch_open ch = true -> k ∈ e_active (f_ether s)).
Proof.
  intros H. set (o := x_run x_new [Config false x_t (x_env [x_if []] NoActivate Nothing)]).
  assert (E : match o with Some s => (option_map ch_open (e_chans (f_ether s) !! "eth0"), bool_decide ("eth0" ∈ e_active (f_ether s))) | None => (None, true) end = (Some true, false)) by by vm_compute.
  destruct o as [s|] eqn:Eo; [|done]. injection E as E1 E2. destruct (e_chans (f_ether s) !! "eth0") as [ch|] eqn:Ec; [|done]. cbn in E1. injection E1 as E1.
  apply bool_decide_eq_false in E2. apply E2. apply (H s "eth0" ch); [by eexists|done|done].
Qed.

Print Assumptions C76_udp_options.
Print Assumptions C76_tcp_options.
Print Assumptions C76_ether_options.
Print Assumptions C76_unix_options.
Print Assumptions C76_ws_options.
Print Assumptions C76_general_options.
Print Assumptions C76_ether.
Print Assumptions C76_tcp.
Print Assumptions C76_udp.
Print Assumptions C76_unix.
Print Assumptions C76_ws.
Print Assumptions C76_unix_removed.
Print Assumptions C76_dry.
Print Assumptions C76_process.
Print Assumptions C76_reload.
Print Assumptions C76_schemes.
Print Assumptions C76_groups.
Print Assumptions C76_numbers.
Print Assumptions C76_netif.
Print Assumptions C76_address.
Print Assumptions C76_channels.
Print Assumptions C76_ether_stuck.
Print Assumptions C76_netdev.
Print Assumptions C76_group_refuted.
Print Assumptions C76_address_refuted.
Print Assumptions C76_dry_refuted.
Print Assumptions C76_netdev_refuted.
Print Assumptions C76_atomic_refuted.
Print Assumptions C76_listening_refuted.
