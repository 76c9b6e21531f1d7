(** What the options of face_system mean, which channels and multicast faces a configuration asks for. *)
From Coq Require Import String Ascii.
From stdpp Require Import gmap strings.
From Verif Require Import Lib Cfg_Model Fs_Model.
Open Scope string_scope.
Open Scope list_scope.

(** * Options *)
Definition lines (k : string) (l : list (string * ptree)) : list ptree := map snd (List.filter (fun x => String.eqb (fst x) k) l).
(** the value of an option: that of the last line with its name, else the default; None if that line is not valid *)
Definition value {A} (k : string) (f : ptree -> option A) (d : A) (l : list (string * ptree)) : option A :=
  match last (lines k l) with Some t => f t | None => Some d end.
Definition valid {A} (f : ptree -> option A) (t : ptree) : bool := match f t with Some _ => true | None => false end.
(** every line has a known name and a valid value *)
Definition known (keys : list (string * (ptree -> bool))) (l : list (string * ptree)) : bool :=
  forallb (fun x => existsb (fun k => String.eqb (fst x) (fst k) && snd k (snd x)) keys) l.
(** the section is there once, and its lines are known; or it is not there *)
Definition section_ok (ok : ptree -> bool) (o : option ptree) : bool := match o with Some t => ok t | None => true end.

Section Spec.
Context {rules arules : Type}.
Variables (any_netif no_netif : rules) (read_rules : ptree -> option rules) (accepts : rules -> rules -> netif -> bool).
Variables (any_addr no_addr loopback_only : arules) (read_arules : ptree -> option arules).
Variables (make_v4 make_v6 make_ether : string -> option N).
Variable parse_rule : ptree -> option (list string).
Notation udp_conf := (@udp_conf rules).
Notation ether_conf := (@ether_conf rules).
Notation tcp_conf := (@tcp_conf arules).
Definition multicast4 (t : ptree) : option N := n ← make_v4 (pt_value t); if (224 * 2 ^ 24 <=? n)%N && (n <? 240 * 2 ^ 24)%N then Some n else None.
Definition multicast6 (t : ptree) : option N := n ← make_v6 (pt_value t); if (255 * 2 ^ 120 <=? n)%N && (n <? 256 * 2 ^ 120)%N then Some n else None.
Definition multicast_ether (t : ptree) : option N := n ← make_ether (pt_value t); if (n =? 0)%N then None else if N.testbit n 40 then Some n else None.
Definition in_range (lo hi : N) (t : ptree) : option N := n ← parse_number t; if (lo <=? n)%N && (n <=? hi)%N then Some n else None.

(** udp *)
Definition udp_keys : list (string * (ptree -> bool)) :=
  [("listen", valid parse_yes_no); ("port", valid (in_range 0 65535)); ("enable_v4", valid parse_yes_no); ("enable_v6", valid parse_yes_no);
   ("idle_timeout", valid (in_range 0 (2 ^ 32 - 1))); ("unicast_mtu", valid (in_range 64 8800)); ("keep_alive_interval", fun _ => true);
   ("mcast", valid parse_yes_no); ("mcast_group", valid multicast4); ("mcast_port", valid (in_range 0 65535));
   ("mcast_group_v6", valid multicast6); ("mcast_port_v6", valid (in_range 0 65535)); ("mcast_ad_hoc", valid parse_yes_no);
   ("whitelist", valid read_rules); ("blacklist", valid read_rules)].
(** [c] has the values the lines give, and those of [d] for the options that are not there *)
Definition udp_says (l : list (string * ptree)) (d c : udp_conf) : Prop :=
  value "listen" parse_yes_no (uc_listen d) l = Some (uc_listen c) /\
  value "port" (in_range 0 65535) (uc_port d) l = Some (uc_port c) /\
  value "enable_v4" parse_yes_no (uc_v4 d) l = Some (uc_v4 c) /\
  value "enable_v6" parse_yes_no (uc_v6 d) l = Some (uc_v6 c) /\
  value "idle_timeout" (in_range 0 (2 ^ 32 - 1)) (uc_idle d) l = Some (uc_idle c) /\
  value "unicast_mtu" (in_range 64 8800) (uc_mtu d) l = Some (uc_mtu c) /\
  value "mcast" parse_yes_no (uc_mcast d) l = Some (uc_mcast c) /\
  value "mcast_group" multicast4 (uc_group d) l = Some (uc_group c) /\
  value "mcast_port" (in_range 0 65535) (uc_gport d) l = Some (uc_gport c) /\
  value "mcast_group_v6" multicast6 (uc_group6 d) l = Some (uc_group6 c) /\
  value "mcast_port_v6" (in_range 0 65535) (uc_gport6 d) l = Some (uc_gport6 c) /\
  value "mcast_ad_hoc" parse_yes_no (uc_adhoc d) l = Some (uc_adhoc c) /\
  value "whitelist" read_rules (uc_white d) l = Some (uc_white c) /\
  value "blacklist" read_rules (uc_black d) l = Some (uc_black c).
(** without the section nothing is enabled; with it, everything is by default *)
Definition udp_default (on : bool) : udp_conf :=
  UdpConf true 6363 on on 600 8800 on (224 * 2 ^ 24 + 23 * 2 ^ 8 + 170) 56363 (0xff02 * 2 ^ 112 + 0x1234) 56363 false any_netif no_netif.
Definition udp_wants (o : option ptree) (c : udp_conf) : Prop :=
  match o with
  | None => c = udp_default false
  | Some t => udp_says (pt_children t) (udp_default true) c
  end.
Definition udp_valid (t : ptree) : Prop :=
  known udp_keys (pt_children t) = true /\
  ~ (value "enable_v4" parse_yes_no true (pt_children t) = Some false /\ value "enable_v6" parse_yes_no true (pt_children t) = Some false /\
     value "mcast" parse_yes_no true (pt_children t) = Some false).

(** tcp *)
Definition local_keys : list (string * (ptree -> bool)) := [("whitelist", valid read_arules); ("blacklist", valid read_arules)].
Definition tcp_keys : list (string * (ptree -> bool)) :=
  [("listen", valid parse_yes_no); ("port", valid (in_range 0 65535)); ("enable_v4", valid parse_yes_no); ("enable_v6", valid parse_yes_no);
   ("local", fun t => known local_keys (pt_children t))].
(** the lines inside the sections "local" *)
Definition local_lines (l : list (string * ptree)) : list (string * ptree) := flat_map pt_children (lines "local" l).
Definition tcp_wants (t : ptree) (c : tcp_conf) : Prop :=
  let l := pt_children t in
  value "listen" parse_yes_no true l = Some (tc_listen c) /\
  value "port" (in_range 0 65535) 6363%N l = Some (tc_port c) /\
  value "enable_v4" parse_yes_no true l = Some (tc_v4 c) /\
  value "enable_v6" parse_yes_no true l = Some (tc_v6 c) /\
  match lines "local" l with
  | [] => tc_white c = loopback_only /\ tc_black c = no_addr
  | _ => value "whitelist" read_arules any_addr (local_lines l) = Some (tc_white c) /\ value "blacklist" read_arules no_addr (local_lines l) = Some (tc_black c)
  end.
Definition tcp_valid (t : ptree) : Prop :=
  known tcp_keys (pt_children t) = true /\
  ~ (value "enable_v4" parse_yes_no true (pt_children t) = Some false /\ value "enable_v6" parse_yes_no true (pt_children t) = Some false).

(** ether *)
Definition ether_keys : list (string * (ptree -> bool)) :=
  [("listen", valid parse_yes_no); ("idle_timeout", valid (in_range 0 (2 ^ 32 - 1))); ("mcast", valid parse_yes_no); ("mcast_group", valid multicast_ether);
   ("mcast_ad_hoc", valid parse_yes_no); ("whitelist", valid read_rules); ("blacklist", valid read_rules)].
Definition ether_wants (o : option ptree) (c : ether_conf) : Prop :=
  match o with
  | None => c = EtherConf false false 600 false 0x01005E0017AA false any_netif no_netif
  | Some t =>
      let l := pt_children t in
      ec_enabled c = true /\
      value "listen" parse_yes_no true l = Some (ec_listen c) /\
      value "idle_timeout" (in_range 0 (2 ^ 32 - 1)) 600%N l = Some (ec_idle c) /\
      value "mcast" parse_yes_no true l = Some (ec_mcast c) /\
      value "mcast_group" multicast_ether 0x01005E0017AA%N l = Some (ec_group c) /\
      value "mcast_ad_hoc" parse_yes_no false l = Some (ec_adhoc c) /\
      value "whitelist" read_rules any_netif l = Some (ec_white c) /\
      value "blacklist" read_rules no_netif l = Some (ec_black c)
  end.
Definition ether_valid (t : ptree) : Prop := known ether_keys (pt_children t) = true.

(** unix, websocket, general, netdev_bound *)
Definition unix_wants (t : ptree) (p : string) : Prop := value "path" (fun t => Some (pt_value t)) "/run/nfd/nfd.sock" (pt_children t) = Some p.
Definition unix_valid (t : ptree) : Prop := known [("path", fun _ => true)] (pt_children t) = true.
Definition ws_keys : list (string * (ptree -> bool)) :=
  [("listen", valid parse_yes_no); ("port", valid (in_range 0 65535)); ("enable_v4", valid parse_yes_no); ("enable_v6", valid parse_yes_no)].
Definition ws_wants (o : option ptree) (c : ws_conf) : Prop :=
  match o with
  | None => c = WsConf false 9696 true true
  | Some t =>
      let l := pt_children t in
      value "listen" parse_yes_no true l = Some (wc_listen c) /\ value "port" (in_range 0 65535) 9696%N l = Some (wc_port c) /\
      value "enable_v4" parse_yes_no true l = Some (wc_v4 c) /\ value "enable_v6" parse_yes_no true l = Some (wc_v6 c)
  end.
Definition ws_valid (t : ptree) : Prop :=
  known ws_keys (pt_children t) = true /\
  ~ (value "enable_v4" parse_yes_no true (pt_children t) = Some false /\ value "enable_v6" parse_yes_no true (pt_children t) = Some false).
Definition mark_wanted (o : option ptree) (mark : bool) : Prop :=
  match o with None => mark = true | Some t => value "enable_congestion_marking" parse_yes_no true (pt_children t) = Some mark end.
Definition general_valid (t : ptree) : Prop := known [("enable_congestion_marking", valid parse_yes_no)] (pt_children t) = true.
Definition netdev_valid (t : ptree) : Prop := known [("rule", valid parse_rule)] (pt_children t) = true.
Definition if_there (P : ptree -> Prop) (o : option ptree) : Prop := match o with Some t => P t | None => True end.
(** the whole section face_system *)
Definition fs_valid (t : ptree) : Prop :=
  NoDup (map fst (pt_children t)) /\
  (forall k, k ∈ map fst (pt_children t) -> k ∈ ["general"; "ether"; "tcp"; "udp"; "unix"; "websocket"; "netdev_bound"]) /\
  if_there general_valid (pt_child "general" t) /\ if_there ether_valid (pt_child "ether" t) /\ if_there tcp_valid (pt_child "tcp" t) /\
  if_there udp_valid (pt_child "udp" t) /\ if_there unix_valid (pt_child "unix" t) /\ if_there ws_valid (pt_child "websocket" t) /\
  if_there netdev_valid (pt_child "netdev_bound" t).

(** * Channels *)
(** those that are wanted are there afterwards: an old one as it was, a new one with the given settings, listening if wanted *)
Definition chans_after {K} `{Countable K} (wanted : K -> bool) (listening : bool) (new : chan) (m m' : gmap K chan) : Prop :=
  forall k,
    m' !! k =
      if wanted k then
        match m !! k with
        | Some c => Some (Chan (ch_mark c) (ch_idle c) (ch_mtu c) (ch_open c || listening))
        | None => Some (Chan (ch_mark new) (ch_idle new) (ch_mtu new) listening)
        end
      else m !! k.
Definition family_wanted (v4 v6 : bool) (port : N) (ep : lep) : bool :=
  bool_decide (ip_num (l_ip ep) = 0%N) && bool_decide (ip_scope (l_ip ep) = 0%N) && bool_decide (l_port ep = port) && (if ip_v6 (l_ip ep) then v6 else v4).

(** * Multicast faces *)
(** a wish for a face: its place, group, scope id, and whether the system lets it be made *)
Record wish (K : Type) := Wish { wi_key : K; wi_group : N; wi_scope : N; wi_can : bool }.
Global Arguments Wish {K} _ _ _ _.
Global Arguments wi_key {K} _. Global Arguments wi_group {K} _. Global Arguments wi_scope {K} _. Global Arguments wi_can {K} _.
(** faces after a configuration was applied ([closing] = true) or an interface was added (false), given the wishes: a face
    that is wished for stays, another one is closed; else the first wish that can be fulfilled is *)
Definition faces_after {K} `{Countable K} (closing : bool) (wishes : list (wish K)) (adhoc mark : bool) (next next' : N) (m m' : gmap K mface) : Prop :=
  forall k,
    match m !! k with
    | Some f =>
        m' !! k = Some (if closing && negb (existsb (fun w => bool_decide (wi_key w = k) && (wi_group w =? mf_group f)%N && (wi_scope w =? mf_scope f)%N) wishes)
                        then MFace (mf_group f) (mf_scope f) (mf_adhoc f) (mf_mark f) (mf_no f) true else f)
    | None =>
        match List.find (fun w => bool_decide (wi_key w = k) && wi_can w) wishes with
        | Some w => exists no, (next <= no < next')%N /\ m' !! k = Some (MFace (wi_group w) (wi_scope w) adhoc mark no false)
        | None => m' !! k = None
        end
    end.
(** no two faces made then have the same number *)
Definition own_numbers {K} `{Countable K} (m m' : gmap K mface) : Prop :=
  forall k k' f f', m !! k = None -> m !! k' = None -> m' !! k = Some f -> m' !! k' = Some f' -> mf_no f = mf_no f' -> k = k'.
(** UDP: an interface that is up, not a loopback, can do multicast, and is accepted *)
Definition udp_fit (c : udp_conf) (n : netif) : bool :=
  uc_mcast c && ni_up n && negb (ni_loop n) && ni_mcast n && accepts (uc_white c) (uc_black c) n.
(** its first address of a family whose scope is link or global *)
Definition usable (v6 : bool) (n : netif) : list ip := take 1 (map fst (List.filter (fun x => Bool.eqb (ip_v6 (fst x)) v6 && snd x) (ni_addrs n))).
Definition udp_wish (c : udp_conf) (chans : gmap lep chan) (e : env) (n : netif) (a : ip) : wish lep :=
  let ep := Lep a (if ip_v6 a then uc_gport6 c else uc_gport c) in
  Wish ep (if ip_v6 a then uc_group6 c else uc_group c) (if ip_v6 a then ni_index n else 0%N) (en_mcast e n a && bool_decide (chans !! ep = None)).
Definition udp_wishes (c : udp_conf) (chans : gmap lep chan) (e : env) (l : list netif) : list (wish lep) :=
  flat_map (fun n => if udp_fit c n then map (udp_wish c chans e n) (usable false n ++ usable true n) else []) l.
(** Ethernet *)
Definition ether_fit (n : netif) : bool := ni_up n && ni_ether n && negb (ni_hw n =? 0)%N.
Definition ether_wishes (c : ether_conf) (e : env) (l : list netif) : list (wish (string * N)) :=
  flat_map (fun n => if ec_mcast c && ether_fit n && ni_mcast n && accepts (ec_white c) (ec_black c) n then [Wish (ni_name n, ec_group c) (ec_group c) 0 (en_mcast_ether e n)] else []) l.

(** * When a configuration cannot be carried out *)
(** a channel is wanted, and its endpoint belongs to a multicast face or it should listen and cannot *)
Definition udp_stuck (c : udp_conf) (e : env) (s : @udpf rules) (v6 : bool) : Prop :=
  (if v6 then uc_v6 c else uc_v4 c) = true /\
  let ep := any_ep v6 (uc_port c) in
  (u_chans s !! ep = None /\ u_faces s !! ep <> None) \/
  (uc_listen c = true /\ en_udp e ep <> Bound /\ forall ch, u_chans s !! ep = Some ch -> ch_open ch = false).
Definition tcp_stuck (c : tcp_conf) (e : env) (s : @tcpf arules) (v6 : bool) : Prop :=
  (if v6 then tc_v6 c else tc_v4 c) = true /\ tc_listen c = true /\ en_tcp e (any_ep v6 (tc_port c)) <> Bound /\
  forall ch, t_chans s !! any_ep v6 (tc_port c) = Some ch -> ch_open ch = false.
Definition ws_stuck (c : ws_conf) (e : env) (s : wsf) (v6 : bool) : Prop :=
  (if v6 then wc_v6 c else wc_v4 c) = true /\ en_ws e (any_ep v6 (wc_port c)) <> Bound /\
  forall ch, w_chans s !! any_ep v6 (wc_port c) = Some ch -> ch_open ch = false.
Definition ether_wanted (c : ether_conf) (l : list netif) (k : string) : bool := ec_enabled c && existsb (fun n => ether_fit n && String.eqb (ni_name n) k) l.
(** the capture library cannot be used for that channel *)
Definition ether_bad (c : ether_conf) (e : env) (m : gmap string chan) (k : string) : Prop :=
  (m !! k = None /\ en_pcap e k = NoHandle) \/
  (ec_listen c = true /\ en_pcap e k = NoFilter /\ forall ch, m !! k = Some ch -> ch_open ch = false).
Definition ether_tidy (m : gmap (string * N) mface) : Prop := forall key f, m !! key = Some f -> mf_group f = key.2 /\ mf_scope f = 0%N.
(** it starts to listen, and that works *)
Definition ether_starts (c : ether_conf) (e : env) (m : gmap string chan) (k : string) : Prop :=
  ec_listen c = true /\ en_pcap e k = Captures /\ forall ch, m !! k = Some ch -> ch_open ch = false.
(** the interfaces whose new addresses are looked at afterwards *)
Definition watched (c : udp_conf) (n : netif) : Prop := udp_fit c n = true /\ usable false n = [] /\ usable true n = [].

(** * What a configuration leads to *)
Definition udp_after (o : option ptree) (mark : bool) (e : env) (s s' : @udpf rules) : Prop :=
  exists c, udp_wants o c /\
    u_conf s' = c /\ u_mark s' = mark /\ u_mtu s' = uc_mtu c /\
    (forall k, k ∈ u_schemes s' <-> k ∈ u_schemes s \/ (k = "udp" /\ (uc_v4 c || uc_v6 c) = true) \/ (k = "udp4" /\ uc_v4 c = true) \/ (k = "udp6" /\ uc_v6 c = true)) /\
    chans_after (family_wanted (uc_v4 c) (uc_v6 c) (uc_port c)) (uc_listen c) (Chan mark (uc_idle c) (uc_mtu c) false) (u_chans s) (u_chans s') /\
    (u_next s <= u_next s')%N /\
    (forall i, i ∈ u_watch s' <-> i ∈ u_watch s \/ exists n, n ∈ en_netifs e /\ watched c n /\ ni_index n = i) /\
    faces_after true (udp_wishes c (u_chans s') e (en_netifs e)) (uc_adhoc c) mark (u_next s) (u_next s') (u_faces s) (u_faces s') /\
    own_numbers (u_faces s) (u_faces s').
Definition tcp_after (o : option ptree) (mark : bool) (s s' : @tcpf arules) : Prop :=
  match o with
  | None => t_mark s' = mark /\ t_chans s' = t_chans s /\ t_white s' = t_white s /\ t_black s' = t_black s /\ t_schemes s' = t_schemes s
  | Some t =>
      exists c, tcp_wants t c /\
        t_mark s' = mark /\ t_white s' = tc_white c /\ t_black s' = tc_black c /\
        (forall k, k ∈ t_schemes s' <-> k ∈ t_schemes s \/ k = "tcp" \/ (k = "tcp4" /\ tc_v4 c = true) \/ (k = "tcp6" /\ tc_v6 c = true)) /\
        chans_after (family_wanted (tc_v4 c) (tc_v6 c) (tc_port c)) (tc_listen c) (Chan mark 0 0 false) (t_chans s) (t_chans s')
  end.
Definition ether_after (o : option ptree) (e : env) (s s' : @etherf rules) : Prop :=
  exists c, ether_wants o c /\
    e_conf s' = c /\
    (forall k, k ∈ e_schemes s' <-> (k ∈ e_schemes s /\ k <> "ether") \/ (k = "ether" /\ ec_enabled c = true)) /\
    chans_after (ether_wanted c (en_netifs e)) (ec_listen c) (Chan false (ec_idle c) 0 false) (e_chans s) (e_chans s') /\
    (forall k, k ∈ e_active s' <-> k ∈ e_active s \/ (ether_wanted c (en_netifs e) k = true /\ ether_starts c e (e_chans s) k)) /\
    (e_next s <= e_next s')%N /\
    faces_after true (ether_wishes c e (en_netifs e)) (ec_adhoc c) false (e_next s) (e_next s') (e_faces s) (e_faces s') /\
    own_numbers (e_faces s) (e_faces s').
Definition ws_after (o : option ptree) (s s' : wsf) : Prop :=
  exists c, ws_wants o c /\
    chans_after (fun ep => wc_listen c && family_wanted (wc_v4 c) (wc_v6 c) (wc_port c) ep) true (Chan false 0 0 false) (w_chans s) (w_chans s').
(** the channel of that path is listening already *)
Definition unix_open (s : unixf) (p : string) : Prop := exists ch, x_chans s !! p = Some ch /\ ch_open ch = true.
Definition unix_after (normal : string -> option string) (o : option ptree) (mark : bool) (e : env) (s s' : unixf) : Prop :=
  x_mark s' = mark /\
  match o with
  | None => x_chans s' = x_chans s /\ x_removed s' = x_removed s
  | Some t =>
      exists path p, unix_wants t path /\ normal path = Some p /\
        chans_after (fun k => bool_decide (k = p)) true (Chan mark 0 0 false) (x_chans s) (x_chans s') /\
        (unix_open s p -> x_removed s' = x_removed s) /\
        (~ unix_open s p -> x_removed s' = match en_file e p with Stale => p :: x_removed s | _ => x_removed s end)
  end.
(** a path at which the daemon cannot listen *)
Definition unix_stuck (e : env) (s : unixf) (p : string) : Prop :=
  ~ unix_open s p /\
  (en_mkdir e p = false \/ en_file e p = Answered \/ en_file e p = NoSock \/ en_unix e p <> Bound \/ en_chmod e p = false).
(** something in the system around the daemon prevents the configuration *)
Definition troubled (normal : string -> option string) (t : ptree) (e : env) (s : @fs rules arules) : Prop :=
  (exists c k, ether_wants (pt_child "ether" t) c /\ ether_wanted c (en_netifs e) k = true /\ ether_bad c e (e_chans (f_ether s)) k) \/
  (exists t' c v6, pt_child "tcp" t = Some t' /\ tcp_wants t' c /\ tcp_stuck c e (f_tcp s) v6) \/
  (exists c v6, udp_wants (pt_child "udp" t) c /\ udp_stuck c e (f_udp s) v6) \/
  (exists t' path, pt_child "unix" t = Some t' /\ unix_wants t' path /\ forall p, normal path = Some p -> unix_stuck e (f_unix s) p) \/
  (exists c v6, ws_wants (pt_child "websocket" t) c /\ wc_listen c = true /\ ws_stuck c e (f_ws s) v6).
(** no rule for netdev-bound faces names a remote *)
Definition no_remotes (t : ptree) : Prop :=
  forall t' x r, pt_child "netdev_bound" t = Some t' -> x ∈ pt_children t' -> parse_rule (snd x) = Some r -> r = [].

(** * Histories *)
(** channels stay, with the settings they had; they go on listening *)
Definition kept {K} `{Countable K} (m m' : gmap K chan) : Prop :=
  forall k c, m !! k = Some c -> exists o, m' !! k = Some (Chan (ch_mark c) (ch_idle c) (ch_mtu c) o) /\ (ch_open c = true -> o = true).
(** the numbers of the faces are below [next], and each has its own *)
Definition numbered {K} `{Countable K} (next : N) (m : gmap K mface) : Prop :=
  (forall k f, m !! k = Some f -> (mf_no f < next)%N) /\
  forall k k' f f', m !! k = Some f -> m !! k' = Some f' -> mf_no f = mf_no f' -> k = k'.
(** the table of schemes: each is with the factory that provides it *)
Definition provided (s : @fs rules arules) (k id : string) : Prop :=
  (id = "ether" /\ k ∈ e_schemes (f_ether s)) \/ (id = "tcp" /\ k ∈ t_schemes (f_tcp s)) \/ (id = "udp" /\ k ∈ u_schemes (f_udp s)).
(** nothing but the wish for congestion marking *)
Definition but_mark (s s' : @fs rules arules) : Prop :=
  f_ether s' = f_ether s /\ f_ws s' = f_ws s /\ f_by s' = f_by s /\
  (exists b, f_tcp s' = Tcpf b (t_chans (f_tcp s)) (t_white (f_tcp s)) (t_black (f_tcp s)) (t_schemes (f_tcp s))) /\
  (exists b, f_udp s' = Udpf b (u_mtu (f_udp s)) (u_chans (f_udp s)) (u_conf (f_udp s)) (u_faces (f_udp s)) (u_schemes (f_udp s)) (u_watch (f_udp s)) (u_next (f_udp s))) /\
  (exists b, f_unix s' = Unixf b (x_chans (f_unix s)) (x_removed (f_unix s))).
(** the same in all that can be seen: channels, faces, captures, options, schemes, files *)
Definition same (s s' : @fs rules arules) : Prop :=
  e_chans (f_ether s') = e_chans (f_ether s) /\ e_active (f_ether s') = e_active (f_ether s) /\ e_faces (f_ether s') = e_faces (f_ether s) /\ e_conf (f_ether s') = e_conf (f_ether s) /\ e_schemes (f_ether s') = e_schemes (f_ether s) /\
  t_chans (f_tcp s') = t_chans (f_tcp s) /\ t_mark (f_tcp s') = t_mark (f_tcp s) /\ t_schemes (f_tcp s') = t_schemes (f_tcp s) /\
  u_chans (f_udp s') = u_chans (f_udp s) /\ u_faces (f_udp s') = u_faces (f_udp s) /\ u_conf (f_udp s') = u_conf (f_udp s) /\ u_mark (f_udp s') = u_mark (f_udp s) /\ u_mtu (f_udp s') = u_mtu (f_udp s) /\ u_schemes (f_udp s') = u_schemes (f_udp s) /\ u_watch (f_udp s') = u_watch (f_udp s) /\
  x_chans (f_unix s') = x_chans (f_unix s) /\ x_mark (f_unix s') = x_mark (f_unix s) /\ x_removed (f_unix s') = x_removed (f_unix s) /\
  w_chans (f_ws s') = w_chans (f_ws s) /\ f_by s' = f_by s.
Definition all_kept (s s' : @fs rules arules) : Prop :=
  kept (e_chans (f_ether s)) (e_chans (f_ether s')) /\ kept (t_chans (f_tcp s)) (t_chans (f_tcp s')) /\ kept (u_chans (f_udp s)) (u_chans (f_udp s')) /\
  kept (x_chans (f_unix s)) (x_chans (f_unix s')) /\ kept (w_chans (f_ws s)) (w_chans (f_ws s')).
End Spec.
