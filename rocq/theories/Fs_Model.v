(** The face_system section of the configuration: reading the sections of the protocol factories, creating channels and
    multicast faces, reloads, and network interfaces that come later.  The factories are those of a full build on Linux:
    ether, tcp, udp, unix, websocket.  Unicast faces are in Ch_Model. *)
From Coq Require Import String Ascii.
From stdpp Require Import gmap strings.
From Verif Require Import Lib Cfg_Model.
Open Scope string_scope.
Open Scope list_scope.

(** * Addresses and interfaces *)
(** boost::asio::ip::address as a number; [ip_scope] is the scope id of an IPv6 address *)
Record ip := Ip { ip_v6 : bool; ip_num : N; ip_scope : N }.
Record lep := Lep { l_ip : ip; l_port : N }.
Global Instance ip_eq_dec : EqDecision ip. Proof. solve_decision. Defined.
Global Instance ip_countable : Countable ip.
Proof. by refine (inj_countable' (fun a => (ip_v6 a, ip_num a, ip_scope a)) (fun '(b, n, s) => Ip b n s) _); intros []. Defined.
Global Instance lep_eq_dec : EqDecision lep. Proof. solve_decision. Defined.
Global Instance lep_countable : Countable lep.
Proof. by refine (inj_countable' (fun a => (l_ip a, l_port a)) (fun '(b, n) => Lep b n) _); intros []. Defined.
(** address_v4::is_multicast, address_v6::is_multicast *)
Definition is_mcast4 (n : N) : bool := (n / 2 ^ 28 =? 14)%N.
Definition is_mcast6 (n : N) : bool := (n / 2 ^ 120 =? 255)%N.
(** ethernet::Address::isMulticast: the lowest bit of the first of six octets *)
Definition is_mcast_ether (n : N) : bool := N.odd (n / 2 ^ 40).
(** ip::udp::v4(), v6(): the unspecified address *)
Definition any_ep (v6 : bool) (port : N) : lep := Lep (Ip v6 0 0) port.
(** ndn::net::NetworkInterface; for each address, true if its scope is link or global *)
Record netif := Netif { ni_index : N; ni_name : string; ni_up : bool; ni_loop : bool; ni_mcast : bool; ni_ether : bool; ni_hw : N; ni_addrs : list (ip * bool) }.

(** * Configuration values *)
(** config-file.hpp:112-126 parseNumber for a smaller unsigned type *)
Definition parse_upto (max : N) (t : ptree) : option N := match parse_number t with Some n => if (n <=? max)%N then Some n else None | None => None end.
Definition parse_u16 : ptree -> option N := parse_upto 65535.
Definition parse_u32 : ptree -> option N := parse_upto 4294967295.
(** udp-factory.cpp:119-123 with config-file.hpp:139-147 checkRange; face-common.hpp MIN_MTU = 64, MAX_NDN_PACKET_SIZE = 8800 *)
Definition parse_mtu (t : ptree) : option N := match parse_number t with Some n => if ((64 <=? n) && (n <=? 8800))%N then Some n else None | None => None end.

Section FaceSystem.
(** what is not modelled: the texts of addresses, lists of interface and address rules, the predicates over them *)
Context {rules arules : Type}.
Variables (any_netif no_netif : rules) (read_rules : ptree -> option rules) (accepts : rules -> rules -> netif -> bool).
Variables (any_addr no_addr loopback_only : arules) (read_arules : ptree -> option arules).
Variables (make_v4 make_v6 make_ether : string -> option N).
(** std::filesystem::weakly_canonical(absolute(path)); fails with an exception *)
Variable normal : string -> option string.
(** netdev-bound.cpp:87-141 parseRule: the schemes of the remotes of a rule *)
Variable parse_rule : ptree -> option (list string).
(** tcp-factory.cpp:65-70; [tc_local] is isLocalConfigured *)
Record tcp_conf := TcpConf { tc_listen : bool; tc_port : N; tc_v4 : bool; tc_v6 : bool; tc_white : arules; tc_black : arules; tc_local : bool }.
Definition set_tc_listen (x : bool) (c : tcp_conf) : tcp_conf := TcpConf x (tc_port c) (tc_v4 c) (tc_v6 c) (tc_white c) (tc_black c) (tc_local c).
Definition set_tc_port (x : N) (c : tcp_conf) : tcp_conf := TcpConf (tc_listen c) x (tc_v4 c) (tc_v6 c) (tc_white c) (tc_black c) (tc_local c).
Definition set_tc_v4 (x : bool) (c : tcp_conf) : tcp_conf := TcpConf (tc_listen c) (tc_port c) x (tc_v6 c) (tc_white c) (tc_black c) (tc_local c).
Definition set_tc_v6 (x : bool) (c : tcp_conf) : tcp_conf := TcpConf (tc_listen c) (tc_port c) (tc_v4 c) x (tc_white c) (tc_black c) (tc_local c).
Definition set_tc_white (x : arules) (c : tcp_conf) : tcp_conf := TcpConf (tc_listen c) (tc_port c) (tc_v4 c) (tc_v6 c) x (tc_black c) (tc_local c).
Definition set_tc_black (x : arules) (c : tcp_conf) : tcp_conf := TcpConf (tc_listen c) (tc_port c) (tc_v4 c) (tc_v6 c) (tc_white c) x (tc_local c).
Definition set_tc_local (x : bool) (c : tcp_conf) : tcp_conf := TcpConf (tc_listen c) (tc_port c) (tc_v4 c) (tc_v6 c) (tc_white c) (tc_black c) x.
(** tcp-factory.cpp:87-100 *)
Fixpoint read_tcp_local (l : list (string * ptree)) (c : tcp_conf) : option tcp_conf :=
  match l with
  | [] => Some c
  | (k, t) :: l' =>
      if String.eqb k "whitelist" then match read_arules t with Some r => read_tcp_local l' (set_tc_white r c) | None => None end
      else if String.eqb k "blacklist" then match read_arules t with Some r => read_tcp_local l' (set_tc_black r c) | None => None end
      else None
  end.
(** tcp-factory.cpp:72-105 *)
Fixpoint read_tcp (l : list (string * ptree)) (c : tcp_conf) : option tcp_conf :=
  match l with
  | [] => Some c
  | (k, t) :: l' =>
      if String.eqb k "listen" then match parse_yes_no t with Some b => read_tcp l' (set_tc_listen b c) | None => None end
      else if String.eqb k "port" then match parse_u16 t with Some n => read_tcp l' (set_tc_port n c) | None => None end
      else if String.eqb k "enable_v4" then match parse_yes_no t with Some b => read_tcp l' (set_tc_v4 b c) | None => None end
      else if String.eqb k "enable_v6" then match parse_yes_no t with Some b => read_tcp l' (set_tc_v6 b c) | None => None end
      else if String.eqb k "local" then match read_tcp_local (pt_children t) (set_tc_local true c) with Some c' => read_tcp l' c' | None => None end
      else None
  end.
(** tcp-factory.cpp:65-114: the section; None is ConfigFile::Error *)
Definition tcp_section (t : ptree) : option tcp_conf :=
  match read_tcp (pt_children t) (TcpConf true 6363 true true any_addr no_addr false) with
  | Some c =>
      let c := if tc_local c then c else set_tc_white loopback_only (set_tc_black no_addr c) in
      if negb (tc_v4 c) && negb (tc_v6 c) then None else Some c
  | None => None
  end.
(** udp-factory.cpp:88-94, udp-factory.hpp:130-137: the local variables and MulticastConfig *)
Record udp_conf := UdpConf { uc_listen : bool; uc_port : N; uc_v4 : bool; uc_v6 : bool; uc_idle : N; uc_mtu : N; uc_mcast : bool; uc_group : N; uc_gport : N; uc_group6 : N; uc_gport6 : N; uc_adhoc : bool; uc_white : rules; uc_black : rules }.
Definition set_uc_listen (x : bool) (c : udp_conf) : udp_conf := UdpConf x (uc_port c) (uc_v4 c) (uc_v6 c) (uc_idle c) (uc_mtu c) (uc_mcast c) (uc_group c) (uc_gport c) (uc_group6 c) (uc_gport6 c) (uc_adhoc c) (uc_white c) (uc_black c).
Definition set_uc_port (x : N) (c : udp_conf) : udp_conf := UdpConf (uc_listen c) x (uc_v4 c) (uc_v6 c) (uc_idle c) (uc_mtu c) (uc_mcast c) (uc_group c) (uc_gport c) (uc_group6 c) (uc_gport6 c) (uc_adhoc c) (uc_white c) (uc_black c).
Definition set_uc_v4 (x : bool) (c : udp_conf) : udp_conf := UdpConf (uc_listen c) (uc_port c) x (uc_v6 c) (uc_idle c) (uc_mtu c) (uc_mcast c) (uc_group c) (uc_gport c) (uc_group6 c) (uc_gport6 c) (uc_adhoc c) (uc_white c) (uc_black c).
Definition set_uc_v6 (x : bool) (c : udp_conf) : udp_conf := UdpConf (uc_listen c) (uc_port c) (uc_v4 c) x (uc_idle c) (uc_mtu c) (uc_mcast c) (uc_group c) (uc_gport c) (uc_group6 c) (uc_gport6 c) (uc_adhoc c) (uc_white c) (uc_black c).
Definition set_uc_idle (x : N) (c : udp_conf) : udp_conf := UdpConf (uc_listen c) (uc_port c) (uc_v4 c) (uc_v6 c) x (uc_mtu c) (uc_mcast c) (uc_group c) (uc_gport c) (uc_group6 c) (uc_gport6 c) (uc_adhoc c) (uc_white c) (uc_black c).
Definition set_uc_mtu (x : N) (c : udp_conf) : udp_conf := UdpConf (uc_listen c) (uc_port c) (uc_v4 c) (uc_v6 c) (uc_idle c) x (uc_mcast c) (uc_group c) (uc_gport c) (uc_group6 c) (uc_gport6 c) (uc_adhoc c) (uc_white c) (uc_black c).
Definition set_uc_mcast (x : bool) (c : udp_conf) : udp_conf := UdpConf (uc_listen c) (uc_port c) (uc_v4 c) (uc_v6 c) (uc_idle c) (uc_mtu c) x (uc_group c) (uc_gport c) (uc_group6 c) (uc_gport6 c) (uc_adhoc c) (uc_white c) (uc_black c).
Definition set_uc_group (x : N) (c : udp_conf) : udp_conf := UdpConf (uc_listen c) (uc_port c) (uc_v4 c) (uc_v6 c) (uc_idle c) (uc_mtu c) (uc_mcast c) x (uc_gport c) (uc_group6 c) (uc_gport6 c) (uc_adhoc c) (uc_white c) (uc_black c).
Definition set_uc_gport (x : N) (c : udp_conf) : udp_conf := UdpConf (uc_listen c) (uc_port c) (uc_v4 c) (uc_v6 c) (uc_idle c) (uc_mtu c) (uc_mcast c) (uc_group c) x (uc_group6 c) (uc_gport6 c) (uc_adhoc c) (uc_white c) (uc_black c).
Definition set_uc_group6 (x : N) (c : udp_conf) : udp_conf := UdpConf (uc_listen c) (uc_port c) (uc_v4 c) (uc_v6 c) (uc_idle c) (uc_mtu c) (uc_mcast c) (uc_group c) (uc_gport c) x (uc_gport6 c) (uc_adhoc c) (uc_white c) (uc_black c).
Definition set_uc_gport6 (x : N) (c : udp_conf) : udp_conf := UdpConf (uc_listen c) (uc_port c) (uc_v4 c) (uc_v6 c) (uc_idle c) (uc_mtu c) (uc_mcast c) (uc_group c) (uc_gport c) (uc_group6 c) x (uc_adhoc c) (uc_white c) (uc_black c).
Definition set_uc_adhoc (x : bool) (c : udp_conf) : udp_conf := UdpConf (uc_listen c) (uc_port c) (uc_v4 c) (uc_v6 c) (uc_idle c) (uc_mtu c) (uc_mcast c) (uc_group c) (uc_gport c) (uc_group6 c) (uc_gport6 c) x (uc_white c) (uc_black c).
Definition set_uc_white (x : rules) (c : udp_conf) : udp_conf := UdpConf (uc_listen c) (uc_port c) (uc_v4 c) (uc_v6 c) (uc_idle c) (uc_mtu c) (uc_mcast c) (uc_group c) (uc_gport c) (uc_group6 c) (uc_gport6 c) (uc_adhoc c) x (uc_black c).
Definition set_uc_black (x : rules) (c : udp_conf) : udp_conf := UdpConf (uc_listen c) (uc_port c) (uc_v4 c) (uc_v6 c) (uc_idle c) (uc_mtu c) (uc_mcast c) (uc_group c) (uc_gport c) (uc_group6 c) (uc_gport6 c) (uc_adhoc c) (uc_white c) x.
(** udp-protocol.hpp getDefaultMulticastGroup (224.0.23.170:56363), getDefaultMulticastGroupV6 (ff02::1234, port 56363) *)
Definition MCAST4 : N := 224 * 2 ^ 24 + 23 * 2 ^ 8 + 170.
Definition MCAST6 : N := 0xff02 * 2 ^ 112 + 0x1234.
Definition udp_defaults : udp_conf := UdpConf true 6363 false false 600 8800 false MCAST4 56363 MCAST6 56363 false any_netif no_netif.
(** udp-factory.cpp:130-142, 146-158 *)
Definition parse_group4 (t : ptree) : option N := match make_v4 (pt_value t) with Some n => if is_mcast4 n then Some n else None | None => None end.
Definition parse_group6 (t : ptree) : option N := match make_v6 (pt_value t) with Some n => if is_mcast6 n then Some n else None | None => None end.
(** udp-factory.cpp:100-175 *)
Fixpoint read_udp (l : list (string * ptree)) (c : udp_conf) : option udp_conf :=
  match l with
  | [] => Some c
  | (k, t) :: l' =>
      if String.eqb k "listen" then match parse_yes_no t with Some x => read_udp l' (set_uc_listen x c) | None => None end
      else if String.eqb k "port" then match parse_u16 t with Some x => read_udp l' (set_uc_port x c) | None => None end
      else if String.eqb k "enable_v4" then match parse_yes_no t with Some x => read_udp l' (set_uc_v4 x c) | None => None end
      else if String.eqb k "enable_v6" then match parse_yes_no t with Some x => read_udp l' (set_uc_v6 x c) | None => None end
      else if String.eqb k "idle_timeout" then match parse_u32 t with Some x => read_udp l' (set_uc_idle x c) | None => None end
      else if String.eqb k "unicast_mtu" then match parse_mtu t with Some x => read_udp l' (set_uc_mtu x c) | None => None end
      else if String.eqb k "keep_alive_interval" then read_udp l' c
      else if String.eqb k "mcast" then match parse_yes_no t with Some x => read_udp l' (set_uc_mcast x c) | None => None end
      else if String.eqb k "mcast_group" then match parse_group4 t with Some x => read_udp l' (set_uc_group x c) | None => None end
      else if String.eqb k "mcast_port" then match parse_u16 t with Some x => read_udp l' (set_uc_gport x c) | None => None end
      else if String.eqb k "mcast_group_v6" then match parse_group6 t with Some x => read_udp l' (set_uc_group6 x c) | None => None end
      else if String.eqb k "mcast_port_v6" then match parse_u16 t with Some x => read_udp l' (set_uc_gport6 x c) | None => None end
      else if String.eqb k "mcast_ad_hoc" then match parse_yes_no t with Some x => read_udp l' (set_uc_adhoc x c) | None => None end
      else if String.eqb k "whitelist" then match read_rules t with Some x => read_udp l' (set_uc_white x c) | None => None end
      else if String.eqb k "blacklist" then match read_rules t with Some x => read_udp l' (set_uc_black x c) | None => None end
      else None
  end.
(** udp-factory.cpp:88-182: the section, or its absence *)
Definition udp_section (o : option ptree) : option udp_conf :=
  match o with
  | None => Some udp_defaults
  | Some t =>
      match read_udp (pt_children t) (set_uc_v4 true (set_uc_v6 true (set_uc_mcast true udp_defaults))) with
      | Some c => if negb (uc_v4 c) && negb (uc_v6 c) && negb (uc_mcast c) then None else Some c
      | None => None
      end
  end.
(** ethernet-factory.hpp:110-125 UnicastConfig, MulticastConfig; [ec_idle] in seconds *)
Record ether_conf := EtherConf { ec_enabled : bool; ec_listen : bool; ec_idle : N; ec_mcast : bool; ec_group : N; ec_adhoc : bool; ec_white : rules; ec_black : rules }.
Definition set_ec_enabled (x : bool) (c : ether_conf) : ether_conf := EtherConf x (ec_listen c) (ec_idle c) (ec_mcast c) (ec_group c) (ec_adhoc c) (ec_white c) (ec_black c).
Definition set_ec_listen (x : bool) (c : ether_conf) : ether_conf := EtherConf (ec_enabled c) x (ec_idle c) (ec_mcast c) (ec_group c) (ec_adhoc c) (ec_white c) (ec_black c).
Definition set_ec_idle (x : N) (c : ether_conf) : ether_conf := EtherConf (ec_enabled c) (ec_listen c) x (ec_mcast c) (ec_group c) (ec_adhoc c) (ec_white c) (ec_black c).
Definition set_ec_mcast (x : bool) (c : ether_conf) : ether_conf := EtherConf (ec_enabled c) (ec_listen c) (ec_idle c) x (ec_group c) (ec_adhoc c) (ec_white c) (ec_black c).
Definition set_ec_group (x : N) (c : ether_conf) : ether_conf := EtherConf (ec_enabled c) (ec_listen c) (ec_idle c) (ec_mcast c) x (ec_adhoc c) (ec_white c) (ec_black c).
Definition set_ec_adhoc (x : bool) (c : ether_conf) : ether_conf := EtherConf (ec_enabled c) (ec_listen c) (ec_idle c) (ec_mcast c) (ec_group c) x (ec_white c) (ec_black c).
Definition set_ec_white (x : rules) (c : ether_conf) : ether_conf := EtherConf (ec_enabled c) (ec_listen c) (ec_idle c) (ec_mcast c) (ec_group c) (ec_adhoc c) x (ec_black c).
Definition set_ec_black (x : rules) (c : ether_conf) : ether_conf := EtherConf (ec_enabled c) (ec_listen c) (ec_idle c) (ec_mcast c) (ec_group c) (ec_adhoc c) (ec_white c) x.
(** ethernet-protocol.hpp getDefaultMulticastAddress: 01:00:5E:00:17:AA *)
Definition MCAST_ETHER : N := 0x01005E0017AA.
Definition ether_defaults : ether_conf := EtherConf false false 600 false MCAST_ETHER false any_netif no_netif.
(** ethernet-factory.cpp:94-105; the null address is not valid *)
Definition parse_group_ether (t : ptree) : option N := match make_ether (pt_value t) with Some n => if (n =? 0)%N then None else if is_mcast_ether n then Some n else None | None => None end.
(** ethernet-factory.cpp:81-119 *)
Fixpoint read_ether (l : list (string * ptree)) (c : ether_conf) : option ether_conf :=
  match l with
  | [] => Some c
  | (k, t) :: l' =>
      if String.eqb k "listen" then match parse_yes_no t with Some x => read_ether l' (set_ec_listen x c) | None => None end
      else if String.eqb k "idle_timeout" then match parse_u32 t with Some x => read_ether l' (set_ec_idle x c) | None => None end
      else if String.eqb k "mcast" then match parse_yes_no t with Some x => read_ether l' (set_ec_mcast x c) | None => None end
      else if String.eqb k "mcast_group" then match parse_group_ether t with Some x => read_ether l' (set_ec_group x c) | None => None end
      else if String.eqb k "mcast_ad_hoc" then match parse_yes_no t with Some x => read_ether l' (set_ec_adhoc x c) | None => None end
      else if String.eqb k "whitelist" then match read_rules t with Some x => read_ether l' (set_ec_white x c) | None => None end
      else if String.eqb k "blacklist" then match read_rules t with Some x => read_ether l' (set_ec_black x c) | None => None end
      else None
  end.
Definition ether_section (o : option ptree) : option ether_conf :=
  match o with
  | None => Some ether_defaults
  | Some t => read_ether (pt_children t) (set_ec_enabled true (set_ec_listen true (set_ec_mcast true ether_defaults)))
  end.
(** unix-stream-factory.cpp:61-74 *)
Fixpoint read_unix (l : list (string * ptree)) (path : string) : option string :=
  match l with [] => Some path | (k, t) :: l' => if String.eqb k "path" then read_unix l' (pt_value t) else None end.
Definition unix_section (t : ptree) : option string := read_unix (pt_children t) "/run/nfd/nfd.sock".
(** websocket-factory.cpp:54-57 *)
Record ws_conf := WsConf { wc_listen : bool; wc_port : N; wc_v4 : bool; wc_v6 : bool }.
Definition set_wc_listen (x : bool) (c : ws_conf) : ws_conf := WsConf x (wc_port c) (wc_v4 c) (wc_v6 c).
Definition set_wc_port (x : N) (c : ws_conf) : ws_conf := WsConf (wc_listen c) x (wc_v4 c) (wc_v6 c).
Definition set_wc_v4 (x : bool) (c : ws_conf) : ws_conf := WsConf (wc_listen c) (wc_port c) x (wc_v6 c).
Definition set_wc_v6 (x : bool) (c : ws_conf) : ws_conf := WsConf (wc_listen c) (wc_port c) (wc_v4 c) x.
(** websocket-factory.cpp:61-79 *)
Fixpoint read_ws (l : list (string * ptree)) (c : ws_conf) : option ws_conf :=
  match l with
  | [] => Some c
  | (k, t) :: l' =>
      if String.eqb k "listen" then match parse_yes_no t with Some b => read_ws l' (set_wc_listen b c) | None => None end
      else if String.eqb k "port" then match parse_u16 t with Some n => read_ws l' (set_wc_port n c) | None => None end
      else if String.eqb k "enable_v4" then match parse_yes_no t with Some b => read_ws l' (set_wc_v4 b c) | None => None end
      else if String.eqb k "enable_v6" then match parse_yes_no t with Some b => read_ws l' (set_wc_v6 b c) | None => None end
      else None
  end.
(** websocket-factory.cpp:54-86 *)
Definition ws_section (o : option ptree) : option ws_conf :=
  match (match o with None => Some (WsConf false 9696 true true) | Some t => read_ws (pt_children t) (WsConf true 9696 true true) end) with
  | Some c => if negb (wc_v4 c) && negb (wc_v6 c) then None else Some c
  | None => None
  end.
(** face-system.cpp:106-118: the general section; the default is in face-system.hpp:97 *)
Fixpoint read_general (l : list (string * ptree)) (mark : bool) : option bool :=
  match l with
  | [] => Some mark
  | (k, t) :: l' => if String.eqb k "enable_congestion_marking" then match parse_yes_no t with Some b => read_general l' b | None => None end else None
  end.
Definition general_section (o : option ptree) : option bool := match o with None => Some true | Some t => read_general (pt_children t) true end.
(** netdev-bound.cpp:45-56: the rules *)
Fixpoint read_netdev (l : list (string * ptree)) : option (list (list string)) :=
  match l with
  | [] => Some []
  | (k, t) :: l' => if String.eqb k "rule" then match parse_rule t with Some r => option_map (cons r) (read_netdev l') | None => None end else None
  end.
Definition netdev_section (o : option ptree) : option (list (list string)) := match o with None => Some [] | Some t => read_netdev (pt_children t) end.

(** * Channels *)
(** a channel that may listen; [ch_idle] (seconds) and [ch_mtu] are for UDP and Ethernet channels.  [ch_open] is isListening *)
Record chan := Chan { ch_mark : bool; ch_idle : N; ch_mtu : N; ch_open : bool }.
Definition opened (c : chan) : chan := Chan (ch_mark c) (ch_idle c) (ch_mtu c) true.
(** how opening a listening socket ends: the system gives no socket, gives one that cannot be bound, or all is well *)
Inductive bound := NoSocket | NoBind | Bound.
(** what is at the path of a Unix socket: nothing, a socket with a process that answers, one where the connection is refused
    or times out, one where connecting fails in another way, something else *)
Inductive file := Nothing | Answered | Stale | Unclear | NoSock.
(** libpcap on an interface: no handle (constructor), no activation, no filter, or all is well *)
Inductive pcap := NoHandle | NoActivate | NoFilter | Captures.
(** the rest of the system during one call *)
Record env := Env {
  en_netifs : list netif;
  en_tcp : lep -> bound; en_udp : lep -> bound; en_ws : lep -> bound;
  en_mkdir : string -> bool; en_file : string -> file; en_unix : string -> bound; en_chmod : string -> bool;
  en_pcap : string -> pcap;
  en_mcast : netif -> ip -> bool;        (* the two sockets of a UDP multicast face can be opened *)
  en_mcast_ether : netif -> bool         (* the transport of an Ethernet multicast face can be created *) }.
Section Channels.
Context {K : Type} `{Countable K}.
(** createChannel of each factory: the existing channel is used as it is *)
Definition create (k : K) (c : chan) (m : gmap K chan) : gmap K chan := match m !! k with Some _ => m | None => <[k := c]> m end.
(** tcp-channel.cpp:51-71, udp-channel.cpp:76-93 listen, called if the channel is not listening; the socket stays open if it
    cannot be bound *)
Definition listen (want : bool) (r : bound) (k : K) (m : gmap K chan) : gmap K chan * bool :=
  match m !! k with
  | Some c =>
      if want && negb (ch_open c) then
        match r with NoSocket => (m, false) | NoBind => (<[k := opened c]> m, false) | Bound => (<[k := opened c]> m, true) end
      else (m, true)
  | None => (m, true)
  end.
End Channels.

(** * TCP *)
Record tcpf := Tcpf { t_mark : bool; t_chans : gmap lep chan; t_white : arules; t_black : arules; t_schemes : gset string }.
Definition tcp_new : tcpf := Tcpf false ∅ any_addr no_addr ∅.
(** tcp-factory.cpp:122-132, 134-144 with 197-209 createChannel; the result is false if an exception is thrown *)
Definition tcp_family (v6 : bool) (c : tcp_conf) (e : env) (s : tcpf) : tcpf * bool :=
  if (if v6 then tc_v6 c else tc_v4 c) then
    let ep := any_ep v6 (tc_port c) in
    let (m, ok) := listen (tc_listen c) (en_tcp e ep) ep (create ep (Chan (t_mark s) 0 0 false) (t_chans s)) in
    if ok then (Tcpf (t_mark s) m (t_white s) (t_black s) ({[ if v6 then "tcp6" else "tcp4" ]} ∪ t_schemes s), true)
    else (Tcpf (t_mark s) m (t_white s) (t_black s) (t_schemes s), false)
  else (s, true).
(** tcp-factory.cpp:44-147 doProcessConfig *)
Definition tcp_config (dry mark : bool) (o : option ptree) (e : env) (s : tcpf) : tcpf * bool :=
  let s := Tcpf mark (t_chans s) (t_white s) (t_black s) (t_schemes s) in
  match o with
  | None => (s, true)
  | Some t =>
      match tcp_section t with
      | None => (s, false)
      | Some c =>
          if dry then (s, true)
          else
            let s := Tcpf (t_mark s) (t_chans s) (t_white s) (t_black s) ({[ "tcp" ]} ∪ t_schemes s) in
            let (s, ok) := tcp_family false c e s in
            if ok then
              let (s, ok) := tcp_family true c e s in
              if ok then (Tcpf (t_mark s) (t_chans s) (tc_white c) (tc_black c) (t_schemes s), true) else (s, false)
            else (s, false)
      end
  end.

(** * UDP *)
(** a multicast face: the group with the scope id (IPv6), link type, congestion marking, its number, and whether it is closing *)
Record mface := MFace { mf_group : N; mf_scope : N; mf_adhoc : bool; mf_mark : bool; mf_no : N; mf_closing : bool }.
Definition close_mface (f : mface) : mface := MFace (mf_group f) (mf_scope f) (mf_adhoc f) (mf_mark f) (mf_no f) true.
Record udpf := Udpf { u_mark : bool; u_mtu : N; u_chans : gmap lep chan; u_conf : udp_conf; u_faces : gmap lep mface; u_schemes : gset string; u_watch : gset N; u_next : N }.
(** udp-factory.hpp:126-139: the multicast part of [udp_defaults] is MulticastConfig{} *)
Definition udp_new : udpf := Udpf false 8800 ∅ udp_defaults ∅ ∅ ∅ 0.
Definition set_u_chans m s := Udpf (u_mark s) (u_mtu s) m (u_conf s) (u_faces s) (u_schemes s) (u_watch s) (u_next s).
Definition set_u_faces m s := Udpf (u_mark s) (u_mtu s) (u_chans s) (u_conf s) m (u_schemes s) (u_watch s) (u_next s).
(** udp-factory.cpp:190-201, 203-214 with 301-319 createChannel *)
Definition udp_family (v6 : bool) (c : udp_conf) (e : env) (s : udpf) : udpf * bool :=
  if (if v6 then uc_v6 c else uc_v4 c) then
    let ep := any_ep v6 (uc_port c) in
    match u_chans s !! ep, u_faces s !! ep with
    | None, Some _ => (s, false)
    | _, _ =>
        let (m, ok) := listen (uc_listen c) (en_udp e ep) ep (create ep (Chan (u_mark s) (uc_idle c) (u_mtu s) false) (u_chans s)) in
        let s := set_u_chans m s in
        if ok then (Udpf (u_mark s) (u_mtu s) (u_chans s) (u_conf s) (u_faces s) ({[ "udp"; if v6 then "udp6" else "udp4" ]} ∪ u_schemes s) (u_watch s) (u_next s), true)
        else (s, false)
    end
  else (s, true).
(** udp-factory.cpp:387-398 pickAddress *)
Definition pick (v6 : bool) (n : netif) : option ip :=
  match List.find (fun x => Bool.eqb (ip_v6 (fst x)) v6 && snd x) (ni_addrs n) with Some (a, _) => Some a | None => None end.
(** udp-factory.cpp:327-386 createMulticastFace; None is an exception, else the face's endpoint.  The assertions on the group
    are in the theorems.  The channel the face is associated with is not modelled. *)
Definition udp_mface (e : env) (n : netif) (a : ip) (s : udpf) : udpf * option lep :=
  let c := u_conf s in
  let group := if ip_v6 a then uc_group6 c else uc_group c in
  let scope := if ip_v6 a then ni_index n else 0%N in
  let ep := Lep a (if ip_v6 a then uc_gport6 c else uc_gport c) in
  match u_faces s !! ep with
  | Some f => (s, if (mf_group f =? group)%N && (mf_scope f =? scope)%N then Some ep else None)
  | None =>
      match u_chans s !! ep with
      | Some _ => (s, None)
      | None =>
          if en_mcast e n a then
            (Udpf (u_mark s) (u_mtu s) (u_chans s) (u_conf s) (<[ep := MFace group scope (uc_adhoc c) (u_mark s) (u_next s) false]> (u_faces s)) (u_schemes s) (u_watch s) (u_next s + 1), Some ep)
          else (s, None)
      end
  end.
(** udp-factory.cpp:446-461: the loop over addresses *)
Fixpoint udp_mfaces (e : env) (n : netif) (l : list ip) (s : udpf) : udpf * list lep :=
  match l with
  | [] => (s, [])
  | a :: l' =>
      let (s, r) := udp_mface e n a s in
      let (s, k) := udp_mfaces e n l' s in
      (s, match r with Some ep => ep :: k | None => k end)
  end.
(** udp-factory.cpp:400-464 applyMcastConfigToNetif: the endpoints of the faces it returns *)
Definition udp_netif (e : env) (n : netif) (s : udpf) : udpf * list lep :=
  let c := u_conf s in
  if negb (uc_mcast c) then (s, [])
  else if negb (ni_up n) then (s, [])
  else if ni_loop n then (s, [])
  else if negb (ni_mcast n) then (s, [])
  else if negb (accepts (uc_white c) (uc_black c) n) then (s, [])
  else
    match (match pick false n with Some a => [a] | None => [] end) ++ (match pick true n with Some a => [a] | None => [] end) with
    | [] => (Udpf (u_mark s) (u_mtu s) (u_chans s) (u_conf s) (u_faces s) (u_schemes s) ({[ ni_index n ]} ∪ u_watch s) (u_next s), [])
    | l => udp_mfaces e n l s
    end.
(** udp-factory.cpp:466-488 applyMcastConfig *)
Fixpoint udp_netifs (e : env) (l : list netif) (s : udpf) : udpf * list lep :=
  match l with
  | [] => (s, [])
  | n :: l' =>
      let (s, k) := udp_netif e n s in
      let (s, k') := udp_netifs e l' s in
      (s, k ++ k')
  end.
Definition udp_mcast (e : env) (s : udpf) : udpf :=
  let old := u_faces s in
  let (s, keep) := udp_netifs e (en_netifs e) s in
  set_u_faces (map_imap (fun ep f => match old !! ep with Some _ => if decide (ep ∈ keep) then Some f else Some (close_mface f) | None => Some f end) (u_faces s)) s.
(** udp-factory.cpp:60-246 doProcessConfig *)
Definition udp_config (dry mark : bool) (o : option ptree) (e : env) (s : udpf) : udpf * bool :=
  let s := Udpf mark (u_mtu s) (u_chans s) (u_conf s) (u_faces s) (u_schemes s) (u_watch s) (u_next s) in
  match udp_section o with
  | None => (s, false)
  | Some c =>
      if dry then (s, true)
      else
        let s := Udpf (u_mark s) (uc_mtu c) (u_chans s) (u_conf s) (u_faces s) (u_schemes s) (u_watch s) (u_next s) in
        let (s, ok) := udp_family false c e s in
        if ok then
          let (s, ok) := udp_family true c e s in
          if ok then (udp_mcast e (Udpf (u_mark s) (u_mtu s) (u_chans s) c (u_faces s) (u_schemes s) (u_watch s) (u_next s)), true)
          else (s, false)
        else (s, false)
  end.

(** * Ethernet *)
(** [e_active]: the interfaces whose channel has activated its capture and waits for frames *)
Record etherf := Etherf { e_conf : ether_conf; e_chans : gmap string chan; e_active : gset string; e_faces : gmap (string * N) mface; e_schemes : gset string; e_next : N }.
Definition ether_new : etherf := Etherf ether_defaults ∅ ∅ ∅ ∅ 0.
Definition set_e_chans m a s := Etherf (e_conf s) m a (e_faces s) (e_schemes s) (e_next s).
(** ethernet-factory.cpp:267-299 applyUnicastConfigToNetif with 217-228 createChannel and ethernet-channel.cpp:73-95 listen:
    isListening becomes true first, and a failed activation is only logged *)
Definition ether_chan (e : env) (n : netif) (s : etherf) : etherf * bool :=
  let c := e_conf s in
  if negb (ec_enabled c) then (s, true)
  else if negb (ni_up n) then (s, true)
  else if negb (ni_ether n) then (s, true)
  else if (ni_hw n =? 0)%N then (s, true)
  else
    match e_chans s !! ni_name n, en_pcap e (ni_name n) with
    | None, NoHandle => (s, false)
    | o, p =>
        let ch := match o with Some ch => ch | None => Chan false (ec_idle c) 0 false end in
        if ec_listen c && negb (ch_open ch) then
          (set_e_chans (<[ni_name n := opened ch]> (e_chans s)) (match p with Captures => {[ ni_name n ]} ∪ e_active s | _ => e_active s end) s, match p with NoFilter => false | _ => true end)
        else (set_e_chans (<[ni_name n := ch]> (e_chans s)) (e_active s) s, true)
    end.
(** ethernet-factory.cpp:301-349 applyMcastConfigToNetif with 236-265 createMulticastFace *)
Definition ether_mface (e : env) (n : netif) (s : etherf) : etherf * option (string * N) :=
  let c := e_conf s in
  if negb (ec_mcast c) then (s, None)
  else if negb (ni_up n) then (s, None)
  else if negb (ni_ether n) then (s, None)
  else if (ni_hw n =? 0)%N then (s, None)
  else if negb (ni_mcast n) then (s, None)
  else if negb (accepts (ec_white c) (ec_black c) n) then (s, None)
  else
    let key := (ni_name n, ec_group c) in
    match e_faces s !! key with
    | Some _ => (s, Some key)
    | None =>
        if en_mcast_ether e n then
          (Etherf (e_conf s) (e_chans s) (e_active s) (<[key := MFace (ec_group c) 0 (ec_adhoc c) false (e_next s) false]> (e_faces s)) (e_schemes s) (e_next s + 1), Some key)
        else (s, None)
    end.
(** ethernet-factory.cpp:365-374 *)
Fixpoint ether_netifs (e : env) (l : list netif) (s : etherf) : etherf * list (string * N) * bool :=
  match l with
  | [] => (s, [], true)
  | n :: l' =>
      let (s, ok) := ether_chan e n s in
      if ok then
        let (s, r) := ether_mface e n s in
        let '(s, k, ok) := ether_netifs e l' s in
        (s, match r with Some key => key :: k | None => k end, ok)
      else (s, [], false)
  end.
(** ethernet-factory.cpp:351-383 applyConfig *)
Definition ether_apply (e : env) (s : etherf) : etherf * bool :=
  let s := Etherf (e_conf s) (e_chans s) (e_active s) (e_faces s) (if ec_enabled (e_conf s) then {[ "ether" ]} ∪ e_schemes s else e_schemes s ∖ {[ "ether" ]}) (e_next s) in
  let old := e_faces s in
  let '(s, keep, ok) := ether_netifs e (en_netifs e) s in
  if ok then
    (Etherf (e_conf s) (e_chans s) (e_active s)
       (map_imap (fun key f => match old !! key with Some _ => if decide (key ∈ keep) then Some f else Some (close_mface f) | None => Some f end) (e_faces s))
       (e_schemes s) (e_next s), true)
  else (s, false).
(** ethernet-factory.cpp:54-164 doProcessConfig *)
Definition ether_config (dry : bool) (o : option ptree) (e : env) (s : etherf) : etherf * bool :=
  match ether_section o with
  | None => (s, false)
  | Some c => if dry then (s, true) else ether_apply e (Etherf c (e_chans s) (e_active s) (e_faces s) (e_schemes s) (e_next s))
  end.

(** * Unix sockets *)
(** [x_removed]: the paths of the files that were removed *)
Record unixf := Unixf { x_mark : bool; x_chans : gmap string chan; x_removed : list string }.
Definition unix_new : unixf := Unixf false ∅ [].
(** unix-stream-channel.cpp:61-127 listen, for a channel that is not listening *)
Definition unix_listen (e : env) (p : string) (c : chan) (s : unixf) : unixf * bool :=
  if en_mkdir e p then
    let bind s :=
      match en_unix e p with
      | Bound => (Unixf (x_mark s) (<[p := opened c]> (x_chans s)) (x_removed s), en_chmod e p)
      | _ => (s, false)
      end in
    match en_file e p with
    | Answered | NoSock => (s, false)
    | Stale => bind (Unixf (x_mark s) (x_chans s) (p :: x_removed s))
    | Nothing | Unclear => bind s
    end
  else (s, false).
(** unix-stream-factory.cpp:42-99 doProcessConfig, createChannel *)
Definition unix_config (dry mark : bool) (o : option ptree) (e : env) (s : unixf) : unixf * bool :=
  let s := Unixf mark (x_chans s) (x_removed s) in
  match o with
  | None => (s, true)
  | Some t =>
      match unix_section t with
      | None => (s, false)
      | Some path =>
          if dry then (s, true)
          else
            match normal path with
            | None => (s, false)
            | Some p =>
                let s := Unixf (x_mark s) (create p (Chan (x_mark s) 0 0 false) (x_chans s)) (x_removed s) in
                match x_chans s !! p with
                | Some c => if ch_open c then (s, true) else unix_listen e p c s
                | None => (s, true)
                end
            end
      end
  end.

(** * WebSocket *)
Record wsf := Wsf { w_chans : gmap lep chan }.
Definition ws_new : wsf := Wsf ∅.
(** websocket-factory.cpp:99-113 with 116-126 createChannel; websocket-channel.cpp:150-162 listen: websocketpp is listening only if all went well *)
Definition ws_family (v6 : bool) (c : ws_conf) (e : env) (s : wsf) : wsf * bool :=
  if (if v6 then wc_v6 c else wc_v4 c) then
    let ep := any_ep v6 (wc_port c) in
    let (m, ok) := listen true (match en_ws e ep with NoBind => NoSocket | r => r end) ep (create ep (Chan false 0 0 false) (w_chans s)) in
    (Wsf m, ok)
  else (s, true).
(** websocket-factory.cpp:42-114 doProcessConfig *)
Definition ws_config (dry : bool) (o : option ptree) (e : env) (s : wsf) : wsf * bool :=
  match ws_section o with
  | None => (s, false)
  | Some c =>
      if dry then (s, true)
      else if negb (wc_listen c) then (s, true)
      else let (s, ok) := ws_family false c e s in if ok then ws_family true c e s else (s, false)
  end.

(** * The face system *)
(** [f_by]: m_factoryByScheme, from scheme to the factory's id *)
Record fs := Fs { f_ether : etherf; f_tcp : tcpf; f_udp : udpf; f_unix : unixf; f_ws : wsf; f_by : gmap string string }.
Definition fs_new : fs := Fs ether_new tcp_new udp_new unix_new ws_new ∅.
Definition set_f_by m s := Fs (f_ether s) (f_tcp s) (f_udp s) (f_unix s) (f_ws s) m.
(** face-system.cpp:125-137 *)
Definition provide (id : string) (old new : gset string) (m : gmap string string) : gmap string string :=
  gset_to_gmap id new ∪ base.filter (fun x => x.1 ∉ old ∖ new) m.
(** face-system.cpp:121-138, one turn of the loop *)
Definition turn (dry : bool) (id : string) (old new : gset string) (s : fs) : fs := if dry then s else set_f_by (provide id old new (f_by s)) s.
Definition factory_names : list string := ["ether"; "tcp"; "udp"; "unix"; "websocket"].
(** face-system.cpp:145-161 *)
Fixpoint sections_ok (seen : list string) (l : list string) : bool :=
  match l with
  | [] => true
  | k :: l' => if existsb (String.eqb k) seen then false else if existsb (String.eqb k) ("general" :: "netdev_bound" :: factory_names) then sections_ok (k :: seen) l' else false
  end.
(** netdev-bound.cpp:41-85 processConfig *)
Definition netdev_config (dry : bool) (o : option ptree) (s : fs) : bool :=
  match netdev_section o with
  | None => false
  | Some rs => dry || forallb (forallb (fun scheme => match f_by s !! (scheme ++ "+dev")%string with Some _ => true | None => false end)) rs
  end.
(** face-system.cpp:100-162 processConfig; the factories come in the order of their names.  False: an exception *)
Definition process_config (dry : bool) (t : ptree) (e : env) (s : fs) : fs * bool :=
  match general_section (pt_child "general" t) with
  | None => (s, false)
  | Some mark =>
      let (x, ok) := ether_config dry (pt_child "ether" t) e (f_ether s) in
      let s' := Fs x (f_tcp s) (f_udp s) (f_unix s) (f_ws s) (f_by s) in
      if negb ok then (s', false) else
      let s := turn dry "ether" (e_schemes (f_ether s)) (e_schemes x) s' in
      let (x, ok) := tcp_config dry mark (pt_child "tcp" t) e (f_tcp s) in
      let s' := Fs (f_ether s) x (f_udp s) (f_unix s) (f_ws s) (f_by s) in
      if negb ok then (s', false) else
      let s := turn dry "tcp" (t_schemes (f_tcp s)) (t_schemes x) s' in
      let (x, ok) := udp_config dry mark (pt_child "udp" t) e (f_udp s) in
      let s' := Fs (f_ether s) (f_tcp s) x (f_unix s) (f_ws s) (f_by s) in
      if negb ok then (s', false) else
      let s := turn dry "udp" (u_schemes (f_udp s)) (u_schemes x) s' in
      let (x, ok) := unix_config dry mark (pt_child "unix" t) e (f_unix s) in
      let s := Fs (f_ether s) (f_tcp s) (f_udp s) x (f_ws s) (f_by s) in
      if negb ok then (s, false) else
      let (x, ok) := ws_config dry (pt_child "websocket" t) e (f_ws s) in
      let s := Fs (f_ether s) (f_tcp s) (f_udp s) (f_unix s) x (f_by s) in
      if negb ok then (s, false) else
      if netdev_config dry (pt_child "netdev_bound" t) s then (s, sections_ok [] (map fst (pt_children t))) else (s, false)
  end.

(** * Histories *)
(** what happens: the section is processed (nfd.cpp:161-169: at the start twice, first dry; nfd.cpp:180-219: on a reload once);
    an interface appears (udp-factory.cpp:51-57, ethernet-factory.cpp:45-52); an address is added to an interface
    (udp-factory.cpp:437-441); a multicast face starts to close or has closed (udp-factory.cpp:374, ethernet-factory.cpp:257) *)
Inductive event :=
| Config (dry : bool) (t : ptree) (e : env)
| NetifAdded (n : netif) (e : env)
| AddressAdded (n : netif) (e : env)
| FaceClosing (ep : lep) | FaceClosed (ep : lep)
| EtherClosing (key : string * N) | EtherClosed (key : string * N).
Definition set_udp u s := Fs (f_ether s) (f_tcp s) u (f_unix s) (f_ws s) (f_by s).
Definition set_ether x s := Fs x (f_tcp s) (f_udp s) (f_unix s) (f_ws s) (f_by s).
(** None: an exception reaches main.cpp and the daemon ends.  ethernet-factory.cpp:45-52 runs first *)
Definition step (s : fs) (v : event) : option fs :=
  match v with
  | Config dry t e => let (s', ok) := process_config dry t e s in if ok then Some s' else None
  | NetifAdded n e =>
      let (x, ok) := ether_chan e n (f_ether s) in
      if ok then let (x, _) := ether_mface e n x in Some (set_udp (fst (udp_netif e n (f_udp s))) (set_ether x s)) else None
  | AddressAdded n e => if decide (ni_index n ∈ u_watch (f_udp s)) then Some (set_udp (fst (udp_netif e n (f_udp s))) s) else Some s
  | FaceClosing ep => Some (set_udp (set_u_faces (alter close_mface ep (u_faces (f_udp s))) (f_udp s)) s)
  | FaceClosed ep =>
      match u_faces (f_udp s) !! ep with
      | Some f => if mf_closing f then Some (set_udp (set_u_faces (delete ep (u_faces (f_udp s))) (f_udp s)) s) else None
      | None => None
      end
  | EtherClosing key => let x := f_ether s in Some (set_ether (Etherf (e_conf x) (e_chans x) (e_active x) (alter close_mface key (e_faces x)) (e_schemes x) (e_next x)) s)
  | EtherClosed key =>
      let x := f_ether s in
      match e_faces x !! key with
      | Some f => if mf_closing f then Some (set_ether (Etherf (e_conf x) (e_chans x) (e_active x) (delete key (e_faces x)) (e_schemes x) (e_next x)) s) else None
      | None => None
      end
  end.
Fixpoint run (s : fs) (l : list event) : option fs := match l with [] => Some s | v :: l' => match step s v with Some s' => run s' l' | None => None end end.
End FaceSystem.
