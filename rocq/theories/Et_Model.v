(** Ethernet: frames, packet filters, and the transport.  Models daemon/face/ethernet-protocol.cpp, ethernet-transport.cpp, unicast-ethernet-transport.cpp,
    multicast-ethernet-transport.cpp, pcap-helper.cpp.
    libpcap, the kernel and Boost.Asio are the environment: what a read gives, what an injection says and when a wait completes are in the events.
    Not modelled: joining the multicast group, the URIs, privileges, the count of dropped frames, logging. *)
From Coq Require Import String Ascii.
From Verif Require Import Lib Fm_Model Lp_Model Tp_Model.
Open Scope list_scope.

(** * Frames *)
(** ndn-cxx net/ethernet.hpp: an address is six octets *)
Definition mac := list N.
Definition HDR_LEN : nat := 14.
Definition MIN_DATA_LEN : nat := 46.
Definition ETHERTYPE_NDN : N := 34340.       (* 0x8624 *)
(** ndn-cxx Address::isMulticast: the lowest bit of the first octet *)
Definition is_group (a : mac) : bool := match a with [] => false | b :: _ => N.odd b end.
(** <net/ethernet.h> ether_header *)
Definition f_dst (p : list N) : mac := take 6 p.
Definition f_src (p : list N) : mac := take 6 (drop 6 p).
Definition f_type (off : nat) (p : list N) : N := big_endian 0 (take 2 (drop (12 + off) p)).
(** ethernet-transport.cpp:117-133 sendPacket: the frame *)
Definition frame (dst src : mac) (block : list N) : list N :=
  let body := if (length block <? MIN_DATA_LEN)%nat then block ++ drop (length block) (replicate MIN_DATA_LEN 0%N) else block in
  dst ++ src ++ [ETHERTYPE_NDN / 256; ETHERTYPE_NDN mod 256]%N ++ body.
(** ethernet-protocol.cpp:32-57 checkFrameHeader: the sender; [debug] is for NDEBUG not defined *)
Definition check_header (debug : bool) (local dest : mac) (p : list N) : option mac :=
  if (length p <? HDR_LEN + MIN_DATA_LEN)%nat then None
  else if negb (f_type 0 p =? ETHERTYPE_NDN)%N then None
  else if debug && bool_decide (f_src p = local) then None
  else if debug && negb (bool_decide (f_dst p = dest)) then None
  else Some (f_src p).
(** pcap-helper.cpp:40-56: the snapshot length; 134-147 readNextPacket gives what was captured *)
Definition capture (p : list N) : list N := take (HDR_LEN + N.to_nat MAX_PACKET) p.

(** * Packet filters: the expressions that are used, in the order in which they are written *)
Inductive fexp := FProto (n : N) | FSrc (a : mac) | FNotSrc (a : mac) | FDst (a : mac) | FNotVlan.
(** pcap-filter(7): a conjunction; the first 'vlan' moves the decoding offsets for the rest of the expression *)
Fixpoint passes (off : nat) (l : list fexp) (p : list N) : bool :=
  match l with
  | [] => true
  | FProto n :: l' => (f_type off p =? n)%N && passes off l' p
  | FSrc a :: l' => bool_decide (f_src p = a) && passes off l' p
  | FNotSrc a :: l' => negb (bool_decide (f_src p = a)) && passes off l' p
  | FDst a :: l' => bool_decide (f_dst p = a) && passes off l' p
  | FNotVlan :: l' => negb ((f_type off p =? 33024)%N || (f_type off p =? 34984)%N || (f_type off p =? 37120)%N) && passes (off + 4) l' p
  end.
(** unicast-ethernet-transport.cpp:51-59 *)
Definition unicast_filter (local remote : mac) : list fexp := [FProto ETHERTYPE_NDN; FSrc remote; FDst local; FNotVlan].
(** multicast-ethernet-transport.cpp:67-75 *)
Definition mcast_filter (local group : mac) : list fexp := [FProto ETHERTYPE_NDN; FDst group; FNotSrc local; FNotVlan].
(** ethernet-channel.cpp:214-231 updateFilter, for a channel that listens *)
Definition channel_filter (local : mac) (peers : list mac) : list fexp := [FProto ETHERTYPE_NDN; FDst local] ++ map FNotSrc peers ++ [FNotVlan].
(** ndn-cxx Address::toString *)
Definition hex_digit (n : N) : ascii := ascii_of_N (if (n <? 10)%N then 48 + n else 87 + n)%N.
Definition hex2 (n : N) : string := String (hex_digit (n / 16)) (String (hex_digit (n mod 16)) EmptyString).
Fixpoint mac_text (a : mac) : string :=
  match a with [] => EmptyString | [b] => hex2 b | b :: a' => (hex2 b ++ ":" ++ mac_text a')%string end.
(** what snprintf is asked to print *)
Definition fexp_text (e : fexp) : string :=
  match e with
  | FProto n => ("(ether proto 0x" ++ hex2 (n / 256) ++ hex2 (n mod 256) ++ ")")%string
  | FSrc a => ("(ether src " ++ mac_text a ++ ")")%string
  | FNotSrc a => ("(not ether src " ++ mac_text a ++ ")")%string
  | FDst a => ("(ether dst " ++ mac_text a ++ ")")%string
  | FNotVlan => "(not vlan)"%string
  end.
Fixpoint filter_text (l : list fexp) : string :=
  match l with [] => EmptyString | [e] => fexp_text e | e :: l' => (fexp_text e ++ " && " ++ filter_text l')%string end.
(** unicast-ethernet-transport.cpp:51, multicast-ethernet-transport.cpp:67 char filter[110], with the final null octet *)
Definition FILTER_SIZE : nat := 110.

(** * The transport *)
(** a handler that is ready to run: handleRead with its error, and what doClose defers *)
Inductive eh := HRead (e : option err) | HClosed.
Global Instance eh_dec : EqDecision eh. Proof. solve_decision. Defined.
Record et := Et {
  e_src : mac;                       (* m_srcAddress *)
  e_dst : mac;                       (* m_destAddress *)
  e_debug : bool;                    (* assertions and the checks under NDEBUG are compiled *)
  e_idle : Z;                        (* m_idleTimeout *)
  e_pers : persistency;
  e_state : tstate;
  e_mtu : Z;
  e_open : bool;                     (* m_pcap and m_socket are open *)
  e_waits : nat;                     (* waits for reading that were started *)
  e_ready : list eh;                 (* handlers that are ready *)
  e_recent : bool;                   (* m_hasRecentlyReceived *)
  e_timer : option Z;                (* m_closeIfIdleEvent: when it is due *)
  e_expires : option Z;              (* expiration time, None for never *)
  e_nout : N; e_bout : N; e_nin : N; e_bin : N;                                 (* counters *)
  (* logs *)
  e_changes : list tstate;           (* newest first *)
  e_sent : list (list N);            (* frames that were given to pcap_inject *)
  e_got : list (list N * option mac) (* packets that were passed to the link service, with the endpoint *)
}.
Definition set_estate v x := Et (e_src x) (e_dst x) (e_debug x) (e_idle x) (e_pers x) v (e_mtu x) (e_open x) (e_waits x) (e_ready x) (e_recent x) (e_timer x) (e_expires x) (e_nout x) (e_bout x) (e_nin x) (e_bin x) (v :: e_changes x) (e_sent x) (e_got x).
Definition set_epers v x := Et (e_src x) (e_dst x) (e_debug x) (e_idle x) v (e_state x) (e_mtu x) (e_open x) (e_waits x) (e_ready x) (e_recent x) (e_timer x) (e_expires x) (e_nout x) (e_bout x) (e_nin x) (e_bin x) (e_changes x) (e_sent x) (e_got x).
Definition set_emtu v x := Et (e_src x) (e_dst x) (e_debug x) (e_idle x) (e_pers x) (e_state x) v (e_open x) (e_waits x) (e_ready x) (e_recent x) (e_timer x) (e_expires x) (e_nout x) (e_bout x) (e_nin x) (e_bin x) (e_changes x) (e_sent x) (e_got x).
Definition set_esock o w r x := Et (e_src x) (e_dst x) (e_debug x) (e_idle x) (e_pers x) (e_state x) (e_mtu x) o w r (e_recent x) (e_timer x) (e_expires x) (e_nout x) (e_bout x) (e_nin x) (e_bin x) (e_changes x) (e_sent x) (e_got x).
Definition set_erecent v x := Et (e_src x) (e_dst x) (e_debug x) (e_idle x) (e_pers x) (e_state x) (e_mtu x) (e_open x) (e_waits x) (e_ready x) v (e_timer x) (e_expires x) (e_nout x) (e_bout x) (e_nin x) (e_bin x) (e_changes x) (e_sent x) (e_got x).
Definition set_etimer t u x := Et (e_src x) (e_dst x) (e_debug x) (e_idle x) (e_pers x) (e_state x) (e_mtu x) (e_open x) (e_waits x) (e_ready x) (e_recent x) t u (e_nout x) (e_bout x) (e_nin x) (e_bin x) (e_changes x) (e_sent x) (e_got x).
Definition add_eout n x := Et (e_src x) (e_dst x) (e_debug x) (e_idle x) (e_pers x) (e_state x) (e_mtu x) (e_open x) (e_waits x) (e_ready x) (e_recent x) (e_timer x) (e_expires x) (e_nout x + 1) (e_bout x + n) (e_nin x) (e_bin x) (e_changes x) (e_sent x) (e_got x).
Definition add_esent f x := Et (e_src x) (e_dst x) (e_debug x) (e_idle x) (e_pers x) (e_state x) (e_mtu x) (e_open x) (e_waits x) (e_ready x) (e_recent x) (e_timer x) (e_expires x) (e_nout x) (e_bout x) (e_nin x) (e_bin x) (e_changes x) (e_sent x ++ [f]) (e_got x).
Definition add_egot b s x := Et (e_src x) (e_dst x) (e_debug x) (e_idle x) (e_pers x) (e_state x) (e_mtu x) (e_open x) (e_waits x) (e_ready x) (e_recent x) (e_timer x) (e_expires x) (e_nout x) (e_bout x) (e_nin x + 1) (e_bin x + len b) (e_changes x) (e_sent x) (e_got x ++ [(b, s)]).

(** transport.cpp:169-208 setState; None: the exception *)
Definition et_set_state (v : tstate) (x : et) : option et :=
  if bool_decide (e_state x = v) then Some x else if valid_change (e_state x) v then Some (set_estate v x) else None.
(** ethernet-transport.cpp:73-92 doClose: the wait is aborted, the socket and the capture handle are closed, the rest is deferred *)
Definition et_do_close (x : et) : et :=
  set_esock false 0 (e_ready x ++ (if e_open x then replicate (e_waits x) (HRead (Some EAborted)) else []) ++ [HClosed]) x.
(** ethernet-transport.cpp:210-221 handleError *)
Definition et_error (x : et) : option et :=
  if bool_decide (e_pers x = Permanent) then Some x
  else match et_set_state TFailed x with Some x1 => Some (et_do_close x1) | None => None end.
(** transport.cpp:67-78 close *)
Definition et_close (x : et) : option et :=
  match e_state x with
  | TUp | TDown => match et_set_state TClosing x with Some x1 => Some (et_do_close x1) | None => None end
  | _ => Some x
  end.
(** ethernet-transport.cpp:94-106 handleNetifStateChange *)
Definition et_netif (running : bool) (x : et) : option et :=
  if running then match e_state x with TDown => et_set_state TUp x | _ => Some x end
  else match e_state x with TUp => et_set_state TDown x | _ => Some x end.
(** transport.cpp:80-100 send, ethernet-transport.cpp:108-143 doSend and sendPacket; None: the assertion on the MTU; [sent] is what pcap_inject returns, None if negative *)
Definition et_send (block : list N) (sent : option N) (x : et) : option et :=
  if e_debug x && (e_mtu x <? Z.of_N (len block))%Z then None
  else match e_state x with
       | TUp | TDown =>
           let x1 := match e_state x with TUp => add_eout (len block) x | _ => x end in
           let f := frame (e_dst x) (e_src x) block in
           let x2 := add_esent f x1 in
           match sent with
           | None => et_error x2
           | Some n => if (n <? len f)%N then et_error x2 else Some x2
           end
       | _ => Some x
       end.
(** ethernet-transport.cpp:194-208 receivePayload, transport.cpp:102-113 receive; None: the assertion on the MTU *)
Definition et_payload (payload : list N) (sender : mac) (x : et) : option et :=
  match from_buffer payload with
  | None => Some x
  | Some (b, _) =>
      if e_debug x && (e_mtu x <? Z.of_N (len b))%Z then None
      else Some (add_egot b (if is_group (e_dst x) then Some sender else None) (set_erecent true x))
  end.
(** ethernet-transport.cpp:145-150 asyncRead *)
Definition et_async_read (x : et) : et := set_esock (e_open x) (S (e_waits x)) (e_ready x) x.
(** ethernet-transport.cpp:152-191 handleRead; [pkt] is what pcap_next_ex gives, None for nothing or an error of it; outcome None: the capture handle is null *)
Definition et_read (e : option err) (pkt : option (list N)) (x : et) : option et :=
  match e with
  | Some e =>
      if bool_decide (e = EAborted) then Some x
      else match e_state x with TClosing | TFailed | TClosed => Some x | _ => et_error x end
  | None =>
      if e_open x then
        match pkt with
        | None => Some (et_async_read x)
        | Some p =>
            match check_header (e_debug x) (e_src x) (if is_group (e_dst x) then e_dst x else e_src x) p with
            | None => Some (et_async_read x)
            | Some sender => match et_payload (drop HDR_LEN p) sender x with Some x1 => Some (et_async_read x1) | None => None end
            end
        end
      else None
  end.
(** unicast-ethernet-transport.cpp:86-100 scheduleClosureWhenIdle *)
Definition et_schedule (now : Z) (x : et) : et := set_etimer (Some (now + e_idle x)%Z) (Some (now + e_idle x)%Z) x.
(** its handler *)
Definition et_timer (now : Z) (x : et) : option et :=
  let x1 := set_etimer None (e_expires x) x in
  if e_recent x then Some (et_schedule now (set_erecent false x1)) else et_close x1.
(** transport.cpp:153-169 setPersistency, unicast-ethernet-transport.cpp:73-84 afterChangePersistency *)
Definition et_persistency (now : Z) (p : persistency) (x : et) : et :=
  if bool_decide (e_pers x = p) then x
  else let x1 := set_epers p x in
       if bool_decide (p = OnDemand) && (0 <? e_idle x)%Z then et_schedule now x1 else set_etimer None None x1.

Inductive et_event :=
| ESend (block : list N) (sent : option N)
| EReady (e : option err)                      (* the wait completes *)
| ERun (pkt : option (list N))                 (* the next handler runs *)
| ENetif (running : bool)
| EMtu (mtu : N)                               (* ethernet-transport.cpp:65-68 *)
| EClose
| EPersistency (now : Z) (p : persistency)
| ETimer (now : Z)
| EPayload (payload : list N) (sender : mac).  (* the channel hands a frame over: ethernet-channel.cpp:174-176 *)
Definition et_step (x : et) (e : et_event) : option et :=
  match e with
  | ESend b s => et_send b s x
  | EReady e => match e_waits x with O => None | S n => Some (set_esock (e_open x) n (e_ready x ++ [HRead e]) x) end
  | ERun pkt =>
      match e_ready x with
      | [] => None
      | h :: l => let x1 := set_esock (e_open x) (e_waits x) l x in
                  match h with HRead e => et_read e pkt x1 | HClosed => et_set_state TClosed x1 end
      end
  | ENetif b => et_netif b x
  | EMtu m => Some (set_emtu (Z.of_N m) x)
  | EClose => et_close x
  | EPersistency now p => Some (et_persistency now p x)
  | ETimer now => et_timer now x
  | EPayload p s => et_payload p s x
  end.
(** ethernet-transport.cpp:41-71, unicast-ethernet-transport.cpp:35-65: a new unicast transport *)
Definition unicast_new (debug : bool) (local remote : mac) (running : bool) (mtu : N) (p : persistency) (idle now : Z) : et :=
  let x := Et local remote debug idle p TUp (Z.of_N mtu) true 1 [] false None None 0 0 0 0 [] [] [] in
  let x1 := if running then x else set_estate TDown x in
  if bool_decide (p = OnDemand) && (0 <? idle)%Z then et_schedule now x1 else x1.
(** ethernet-transport.cpp:41-71, multicast-ethernet-transport.cpp:50-81: a new multicast transport; None: the assertion *)
Definition mcast_new (debug : bool) (local group : mac) (running : bool) (mtu : N) : option et :=
  if debug && negb (is_group group) then None
  else let x := Et local group debug 0 Permanent TUp (Z.of_N mtu) true 1 [] false None None 0 0 0 0 [] [] [] in
       Some (if running then x else set_estate TDown x).
