(** Reading the sections of face_system. *)
From Coq Require Import String Ascii.
From stdpp Require Import gmap strings.
From Verif Require Import Lib Cfg_Model Fs_Model Fs_Spec.
Open Scope string_scope.
Open Scope list_scope.

Lemma lines_cons k k' t l : lines k ((k', t) :: l) = if String.eqb k' k then t :: lines k l else lines k l.
Proof. unfold lines. cbn. by destruct (String.eqb k' k). Qed.
Lemma value_same {A} k (f : ptree -> option A) d d' t l : f t = Some d' -> value k f d ((k, t) :: l) = value k f d' l.
Proof.
  intros E. unfold value. rewrite lines_cons, String.eqb_refl. destruct (lines k l) as [|x xs] eqn:El; [done|].
  change (last (t :: x :: xs)) with (last (x :: xs)). destruct (last (x :: xs)) eqn:L; [done|]. by apply last_None in L.
Qed.
Lemma value_other {A} k k' (f : ptree -> option A) d t l : String.eqb k' k = false -> value k f d ((k', t) :: l) = value k f d l.
Proof. intros E. unfold value. by rewrite lines_cons, E. Qed.
Lemma known_cons keys k t l : known keys ((k, t) :: l) = existsb (fun x => String.eqb k (fst x) && snd x t) keys && known keys l.
Proof. done. Qed.

(** the readers of numbers and groups *)
Lemma upto_range m t : parse_upto m t = in_range 0 m t.
Proof. unfold parse_upto, in_range. destruct (parse_number t) as [n|]; [|reflexivity]. cbn [mbind option_bind]. rewrite (proj2 (N.leb_le 0 n)) by lia. reflexivity. Qed.
Lemma u16_range t : parse_u16 t = in_range 0 65535 t.
Proof. apply upto_range. Qed.
Lemma u32_range t : parse_u32 t = in_range 0 (2 ^ 32 - 1) t.
Proof. change (2 ^ 32 - 1)%N with 4294967295%N. apply upto_range. Qed.
Lemma mtu_range t : parse_mtu t = in_range 64 8800 t.
Proof. unfold parse_mtu, in_range. destruct (parse_number t) as [n|]; reflexivity. Qed.
Lemma mcast4_range n : is_mcast4 n = (224 * 2 ^ 24 <=? n)%N && (n <? 240 * 2 ^ 24)%N.
Proof.
  unfold is_mcast4. pose proof (N.div_mod n (2 ^ 28) ltac:(lia)) as D. pose proof (N.mod_lt n (2 ^ 28) ltac:(lia)) as M.
  apply eq_iff_eq_true. rewrite andb_true_iff, N.eqb_eq, N.leb_le, N.ltb_lt. 
  change (224 * 2 ^ 24)%N with (14 * 2 ^ 28)%N. change (240 * 2 ^ 24)%N with (15 * 2 ^ 28)%N. nia.
Qed.
Lemma mcast6_range n : is_mcast6 n = (255 * 2 ^ 120 <=? n)%N && (n <? 256 * 2 ^ 120)%N.
Proof.
  unfold is_mcast6. pose proof (N.div_mod n (2 ^ 120) ltac:(lia)) as D. pose proof (N.mod_lt n (2 ^ 120) ltac:(lia)) as M.
  apply eq_iff_eq_true. rewrite andb_true_iff, N.eqb_eq, N.leb_le, N.ltb_lt. nia.
Qed.
Lemma mcast_ether_bit n : is_mcast_ether n = N.testbit n 40.
Proof. unfold is_mcast_ether. rewrite N.testbit_odd. by rewrite N.shiftr_div_pow2. Qed.

Set Default Proof Using "Type".
Section Read.
Context {rules arules : Type}.
Variables (any_netif no_netif : rules) (read_rules : ptree -> option rules).
Variables (any_addr no_addr loopback_only : arules) (read_arules : ptree -> option arules).
Variables (make_v4 make_v6 make_ether : string -> option N).
Variable parse_rule : ptree -> option (list string).
Notation read_udp := (read_udp read_rules make_v4 make_v6).
Notation udp_says := (udp_says read_rules make_v4 make_v6).
Notation udp_keys := (udp_keys read_rules make_v4 make_v6).

Lemma group4 t : parse_group4 make_v4 t = multicast4 make_v4 t.
Proof. unfold parse_group4, multicast4. destruct (make_v4 (pt_value t)); [|done]. cbn [mbind option_bind]. by rewrite mcast4_range. Qed.
Lemma group6 t : parse_group6 make_v6 t = multicast6 make_v6 t.
Proof. unfold parse_group6, multicast6. destruct (make_v6 (pt_value t)); [|done]. cbn [mbind option_bind]. by rewrite mcast6_range. Qed.
Lemma group_ether t : parse_group_ether make_ether t = multicast_ether make_ether t.
Proof. unfold parse_group_ether, multicast_ether. destruct (make_ether (pt_value t)) as [n|]; [|done]. cbn [mbind option_bind]. by rewrite mcast_ether_bit. Qed.

Local Ltac vals := repeat split;
  repeat first [ rewrite value_other by reflexivity | erewrite value_same by eassumption ]; try done.
Local Ltac line f t := let E := fresh "E" in destruct (f t) eqn:E.
(** one line of a reader, for the key at hand *)
Local Ltac key k s := destruct (String.eqb_spec k s) as [->|?].

Lemma known_cons_key keys k t l (f : ptree -> bool) :
  existsb (fun x => String.eqb k (fst x) && snd x t) keys = f t -> known keys ((k, t) :: l) = f t && known keys l.
Proof. intros E. by rewrite known_cons, E. Qed.

Lemma read_udp_spec l : forall c,
  match read_udp l c with
  | Some c' => known udp_keys l = true /\ udp_says l c c'
  | None => known udp_keys l = false
  end.
Proof.
  induction l as [|[k t] l IH]; intros c; [by split; [|repeat split]|].
  cbn [Fs_Model.read_udp].
  Ltac one IH k s f t setter c :=
    destruct (String.eqb_spec k s) as [->|?];
    [ let E := fresh "E" in
      destruct (f t) as [x|] eqn:E;
      [ specialize (IH (setter x c)); destruct (Fs_Model.read_udp _ _ _ _ _) as [c'|];
        [ destruct IH as (K & S); split;
          [ rewrite known_cons; cbn [existsb udp_keys Fs_Spec.udp_keys fst snd]; unfold valid; rewrite <-?u16_range, <-?u32_range, <-?mtu_range, <-?group4, <-?group6, E, K; reflexivity
          | unfold Fs_Spec.udp_says in *; destruct S as (S1 & S2 & S3 & S4 & S5 & S6 & S7 & S8 & S9 & S10 & S11 & S12 & S13 & S14);
            rewrite ?u16_range, ?u32_range, ?mtu_range, ?group4, ?group6 in E;
            repeat split; repeat first [ rewrite value_other by reflexivity | rewrite (value_same _ _ _ _ _ _ E) ]; done ]
        | rewrite known_cons, IH; apply andb_false_r ]
      | rewrite known_cons; cbn [existsb udp_keys Fs_Spec.udp_keys fst snd]; unfold valid; rewrite <-?u16_range, <-?u32_range, <-?mtu_range, <-?group4, <-?group6, E; reflexivity ]
    |].
  one IH k "listen" parse_yes_no t (@set_uc_listen rules) c.
  one IH k "port" parse_u16 t (@set_uc_port rules) c.
  one IH k "enable_v4" parse_yes_no t (@set_uc_v4 rules) c.
  one IH k "enable_v6" parse_yes_no t (@set_uc_v6 rules) c.
  one IH k "idle_timeout" parse_u32 t (@set_uc_idle rules) c.
  one IH k "unicast_mtu" parse_mtu t (@set_uc_mtu rules) c.
  destruct (String.eqb_spec k "keep_alive_interval") as [->|?].
  { specialize (IH c). destruct (read_udp l c) as [c'|].
    - destruct IH as (K & S). split; [by rewrite known_cons, K|]. unfold Fs_Spec.udp_says in *.
      destruct S as (S1 & S2 & S3 & S4 & S5 & S6 & S7 & S8 & S9 & S10 & S11 & S12 & S13 & S14).
      repeat split; rewrite value_other by reflexivity; done.
    - rewrite known_cons, IH. apply andb_false_r. }
  one IH k "mcast" parse_yes_no t (@set_uc_mcast rules) c.
  one IH k "mcast_group" (parse_group4 make_v4) t (@set_uc_group rules) c.
  one IH k "mcast_port" parse_u16 t (@set_uc_gport rules) c.
  one IH k "mcast_group_v6" (parse_group6 make_v6) t (@set_uc_group6 rules) c.
  one IH k "mcast_port_v6" parse_u16 t (@set_uc_gport6 rules) c.
  one IH k "mcast_ad_hoc" parse_yes_no t (@set_uc_adhoc rules) c.
  one IH k "whitelist" read_rules t (@set_uc_white rules) c.
  one IH k "blacklist" read_rules t (@set_uc_black rules) c.
  rewrite known_cons. cbn [existsb Fs_Spec.udp_keys fst snd].
  repeat (rewrite (proj2 (String.eqb_neq _ _)) by done). done.
Qed.

(** the other readers, with the same proof *)
Definition ether_says (l : list (string * ptree)) (d c : @ether_conf rules) : Prop :=
  ec_enabled c = ec_enabled d /\
  value "listen" parse_yes_no (ec_listen d) l = Some (ec_listen c) /\
  value "idle_timeout" (in_range 0 (2 ^ 32 - 1)) (ec_idle d) l = Some (ec_idle c) /\
  value "mcast" parse_yes_no (ec_mcast d) l = Some (ec_mcast c) /\
  value "mcast_group" (multicast_ether make_ether) (ec_group d) l = Some (ec_group c) /\
  value "mcast_ad_hoc" parse_yes_no (ec_adhoc d) l = Some (ec_adhoc c) /\
  value "whitelist" read_rules (ec_white d) l = Some (ec_white c) /\
  value "blacklist" read_rules (ec_black d) l = Some (ec_black c).
Definition ws_says (l : list (string * ptree)) (d c : ws_conf) : Prop :=
  value "listen" parse_yes_no (wc_listen d) l = Some (wc_listen c) /\ value "port" (in_range 0 65535) (wc_port d) l = Some (wc_port c) /\
  value "enable_v4" parse_yes_no (wc_v4 d) l = Some (wc_v4 c) /\ value "enable_v6" parse_yes_no (wc_v6 d) l = Some (wc_v6 c).
Definition local_says (l : list (string * ptree)) (d c : @tcp_conf arules) : Prop :=
  tc_listen c = tc_listen d /\ tc_port c = tc_port d /\ tc_v4 c = tc_v4 d /\ tc_v6 c = tc_v6 d /\ tc_local c = tc_local d /\
  value "whitelist" read_arules (tc_white d) l = Some (tc_white c) /\ value "blacklist" read_arules (tc_black d) l = Some (tc_black c).
Definition tcp_says (l : list (string * ptree)) (d c : @tcp_conf arules) : Prop :=
  value "listen" parse_yes_no (tc_listen d) l = Some (tc_listen c) /\ value "port" (in_range 0 65535) (tc_port d) l = Some (tc_port c) /\
  value "enable_v4" parse_yes_no (tc_v4 d) l = Some (tc_v4 c) /\ value "enable_v6" parse_yes_no (tc_v6 d) l = Some (tc_v6 c) /\
  tc_local c = tc_local d || negb (bool_decide (lines "local" l = [])) /\
  value "whitelist" read_arules (tc_white d) (local_lines l) = Some (tc_white c) /\ value "blacklist" read_arules (tc_black d) (local_lines l) = Some (tc_black c).
Notation read_ether := (read_ether read_rules make_ether).
Notation ether_keys := (ether_keys read_rules make_ether).
Notation local_keys := (local_keys read_arules).
Notation tcp_keys := (tcp_keys read_arules).
Local Ltac cut_keys := rewrite known_cons; cbn [existsb Fs_Spec.ether_keys Fs_Spec.ws_keys Fs_Spec.local_keys Fs_Spec.tcp_keys fst snd]; unfold valid; rewrite <-?u16_range, <-?u32_range, <-?group_ether.
Local Ltac one_of rd l IH k s f t setter c :=
    destruct (String.eqb_spec k s) as [->|?];
    [ let E := fresh "E" in
      destruct (f t) as [x|] eqn:E;
      [ specialize (IH (setter x c)); destruct (rd l (setter x c)) as [c'|];
        [ destruct IH as (K & S); split;
          [ cut_keys; rewrite E, K; reflexivity
          | unfold ether_says, ws_says, local_says in *; rewrite ?u16_range, ?u32_range, ?group_ether in E; destruct_and?;
            repeat split; repeat first [ rewrite value_other by reflexivity | rewrite (value_same _ _ _ _ _ _ E) ]; done ]
        | rewrite known_cons, IH; apply andb_false_r ]
      | cut_keys; rewrite E; reflexivity ]
    |].
Local Ltac no_key := cut_keys; repeat (rewrite (proj2 (String.eqb_neq _ _)) by done); done.
Lemma read_ether_spec l : forall c,
  match read_ether l c with
  | Some c' => known ether_keys l = true /\ ether_says l c c'
  | None => known ether_keys l = false
  end.
Proof.
  induction l as [|[k t] l IH]; intros c; [by split; [|repeat split]|].
  cbn [Fs_Model.read_ether].
  one_of constr:(read_ether) l IH k "listen" parse_yes_no t (@set_ec_listen rules) c.
  one_of constr:(read_ether) l IH k "idle_timeout" parse_u32 t (@set_ec_idle rules) c.
  one_of constr:(read_ether) l IH k "mcast" parse_yes_no t (@set_ec_mcast rules) c.
  one_of constr:(read_ether) l IH k "mcast_group" (parse_group_ether make_ether) t (@set_ec_group rules) c.
  one_of constr:(read_ether) l IH k "mcast_ad_hoc" parse_yes_no t (@set_ec_adhoc rules) c.
  one_of constr:(read_ether) l IH k "whitelist" read_rules t (@set_ec_white rules) c.
  one_of constr:(read_ether) l IH k "blacklist" read_rules t (@set_ec_black rules) c.
  no_key.
Qed.
Lemma read_ws_spec l : forall c,
  match read_ws l c with
  | Some c' => known ws_keys l = true /\ ws_says l c c'
  | None => known ws_keys l = false
  end.
Proof.
  induction l as [|[k t] l IH]; intros c; [by split; [|repeat split]|].
  cbn [read_ws].
  one_of read_ws l IH k "listen" parse_yes_no t set_wc_listen c.
  one_of read_ws l IH k "port" parse_u16 t set_wc_port c.
  one_of read_ws l IH k "enable_v4" parse_yes_no t set_wc_v4 c.
  one_of read_ws l IH k "enable_v6" parse_yes_no t set_wc_v6 c.
  no_key.
Qed.
Notation read_tcp_local := (read_tcp_local read_arules).
Lemma read_local_spec l : forall c,
  match read_tcp_local l c with
  | Some c' => known local_keys l = true /\ local_says l c c'
  | None => known local_keys l = false
  end.
Proof.
  induction l as [|[k t] l IH]; intros c; [by split; [|repeat split]|].
  cbn [Fs_Model.read_tcp_local].
  one_of constr:(read_tcp_local) l IH k "whitelist" read_arules t (@set_tc_white arules) c.
  one_of constr:(read_tcp_local) l IH k "blacklist" read_arules t (@set_tc_black arules) c.
  no_key.
Qed.
Lemma lines_app k l l' : lines k (l ++ l') = lines k l ++ lines k l'.
Proof. unfold lines. by rewrite List.filter_app, map_app. Qed.
Lemma value_app {A} k (f : ptree -> option A) d d' l l' : value k f d l = Some d' -> value k f d (l ++ l') = value k f d' l'.
Proof.
  unfold value. rewrite lines_app. intros H. destruct (lines k l') as [|x xs] eqn:E; [by rewrite app_nil_r|].
  rewrite last_app. destruct (last (x :: xs)) eqn:L; [done|]. by apply last_None in L.
Qed.
Lemma local_lines_cons k t l : local_lines ((k, t) :: l) = (if String.eqb k "local" then pt_children t else []) ++ local_lines l.
Proof. unfold local_lines. rewrite lines_cons. by destruct (String.eqb k "local"). Qed.
Notation read_tcp := (read_tcp read_arules).
Lemma read_tcp_spec l : forall c,
  match read_tcp l c with
  | Some c' => known tcp_keys l = true /\ tcp_says l c c'
  | None => known tcp_keys l = false
  end.
Proof.
  induction l as [|[k t] l IH]; intros c; [split; [done|]; repeat split; by rewrite orb_false_r|].
  cbn [Fs_Model.read_tcp].
  Local Ltac one_tcp l IH k s f t setter c :=
    destruct (String.eqb_spec k s) as [->|?];
    [ let E := fresh "E" in
      destruct (f t) as [x|] eqn:E;
      [ specialize (IH (setter x c)); destruct (Fs_Model.read_tcp _ l (setter x c)) as [c'|];
        [ destruct IH as (K & S); split;
          [ cut_keys; rewrite E, K; reflexivity
          | unfold tcp_says in *; rewrite ?u16_range in E; rewrite local_lines_cons, lines_cons; cbn [String.eqb Ascii.eqb Bool.eqb app]; destruct_and?;
            repeat split; repeat first [ rewrite value_other by reflexivity | rewrite (value_same _ _ _ _ _ _ E) ]; done ]
        | rewrite known_cons, IH; apply andb_false_r ]
      | cut_keys; rewrite E; reflexivity ]
    |].
  one_tcp l IH k "listen" parse_yes_no t (@set_tc_listen arules) c.
  one_tcp l IH k "port" parse_u16 t (@set_tc_port arules) c.
  one_tcp l IH k "enable_v4" parse_yes_no t (@set_tc_v4 arules) c.
  one_tcp l IH k "enable_v6" parse_yes_no t (@set_tc_v6 arules) c.
  destruct (String.eqb_spec k "local") as [->|?].
  { pose proof (read_local_spec (pt_children t) (set_tc_local true c)) as L. destruct (read_tcp_local (pt_children t) (set_tc_local true c)) as [c1|].
    - destruct L as (L & L1 & L2 & L3 & L4 & L5 & L6 & L7). specialize (IH c1). destruct (read_tcp l c1) as [c'|].
      + destruct IH as (K & S1 & S2 & S3 & S4 & S5 & S6 & S7). split; [cut_keys; cbn [String.eqb Ascii.eqb Bool.eqb andb orb]; by rewrite L, K|].
        unfold tcp_says. rewrite local_lines_cons, lines_cons. cbn [String.eqb Ascii.eqb Bool.eqb].
        rewrite !value_other by reflexivity. cbn in L1, L2, L3, L4, L5, L6, L7.
        split; [by rewrite <-L1|]. split; [by rewrite <-L2|]. split; [by rewrite <-L3|]. split; [by rewrite <-L4|].
        split; [by rewrite S5, L5, orb_true_r|]. rewrite (value_app _ _ _ _ _ _ L6), (value_app _ _ _ _ _ _ L7). done.
      + rewrite known_cons, IH. apply andb_false_r.
    - cut_keys. cbn [String.eqb Ascii.eqb Bool.eqb andb orb]. by rewrite L. }
  no_key.
Qed.
Lemma read_unix_spec l : forall p,
  match read_unix l p with
  | Some p' => known [("path", fun _ => true)] l = true /\ value "path" (fun t => Some (pt_value t)) p l = Some p'
  | None => known [("path", fun _ => true)] l = false
  end.
Proof.
  induction l as [|[k t] l IH]; intros p; [done|]. cbn [read_unix]. rewrite known_cons. cbn [existsb fst snd].
  destruct (String.eqb_spec k "path") as [->|?]; [|done]. specialize (IH (pt_value t)). destruct (read_unix l (pt_value t)) as [p'|].
  - destruct IH as (K & V). rewrite K. split; [done|]. by erewrite value_same.
  - by rewrite IH.
Qed.
Lemma read_general_spec l : forall m,
  match read_general l m with
  | Some m' => known [("enable_congestion_marking", valid parse_yes_no)] l = true /\ value "enable_congestion_marking" parse_yes_no m l = Some m'
  | None => known [("enable_congestion_marking", valid parse_yes_no)] l = false
  end.
Proof.
  induction l as [|[k t] l IH]; intros m; [done|]. cbn [read_general]. rewrite known_cons. cbn [existsb fst snd].
  destruct (String.eqb_spec k "enable_congestion_marking") as [->|?]; [|done]. unfold valid. destruct (parse_yes_no t) as [b|] eqn:E; [|done].
  specialize (IH b). destruct (read_general l b) as [m'|].
  - destruct IH as (K & V). unfold valid in K. rewrite K. split; [done|]. by erewrite value_same.
  - unfold valid in IH. by rewrite IH.
Qed.
Lemma read_netdev_spec l :
  match read_netdev parse_rule l with
  | Some rs => known [("rule", valid parse_rule)] l = true /\ Forall2 (fun x r => parse_rule (snd x) = Some r) l rs
  | None => known [("rule", valid parse_rule)] l = false
  end.
Proof.
  induction l as [|[k t] l IH]; [done|]. cbn [read_netdev]. rewrite known_cons. cbn [existsb fst snd].
  destruct (String.eqb_spec k "rule") as [->|?]; [|done]. unfold valid in *. destruct (parse_rule t) as [r|] eqn:E; [|done].
  destruct (read_netdev parse_rule l) as [rs|]; cbn [option_map].
  - destruct IH as (K & V). rewrite K. split; [done|]. by constructor.
  - by rewrite IH.
Qed.

(** ** Sections *)
Notation udp_section := (udp_section any_netif no_netif read_rules make_v4 make_v6).
Lemma udp_section_spec o :
  match udp_section o with
  | Some c => if_there (udp_valid read_rules make_v4 make_v6) o /\ udp_wants any_netif no_netif read_rules make_v4 make_v6 o c
  | None => ~ if_there (udp_valid read_rules make_v4 make_v6) o
  end.
Proof.
  destruct o as [t|]; [|done]. cbn [Fs_Model.udp_section if_there].
  pose proof (read_udp_spec (pt_children t) (udp_default any_netif no_netif true)) as R.
  change (set_uc_v4 true (set_uc_v6 true (set_uc_mcast true (udp_defaults any_netif no_netif)))) with (udp_default any_netif no_netif true).
  destruct (read_udp (pt_children t) (udp_default any_netif no_netif true)) as [c|]; [|intros (K & _); congruence].
  destruct R as (K & S). pose proof S as S'. destruct S' as (_ & _ & S3 & S4 & _ & _ & S7 & _). cbn [udp_default uc_v4 uc_v6 uc_mcast] in S3, S4, S7. unfold udp_valid.
  destruct (uc_v4 c), (uc_v6 c), (uc_mcast c); cbn [negb andb];
    first [ split; [split; [done|rewrite S3, S4, S7; by intros (? & ? & ?)]|exact S]
          | intros (_ & N); apply N; done ].
Qed.
Notation tcp_section := (tcp_section any_addr no_addr loopback_only read_arules).
Lemma tcp_section_spec t :
  match tcp_section t with
  | Some c => tcp_valid read_arules t /\ tcp_wants any_addr no_addr loopback_only read_arules t c
  | None => ~ tcp_valid read_arules t
  end.
Proof.
  unfold Fs_Model.tcp_section. pose proof (read_tcp_spec (pt_children t) (TcpConf true 6363 true true any_addr no_addr false)) as R.
  destruct (read_tcp (pt_children t) _) as [c|]; [|intros (K & _); congruence].
  destruct R as (K & S1 & S2 & S3 & S4 & S5 & S6 & S7). cbn in S1, S2, S3, S4, S5, S6, S7.
  unfold tcp_valid, tcp_wants. destruct (lines "local" (pt_children t)) as [|x xs] eqn:El.
  - rewrite S5. cbn [bool_decide negb orb]. rewrite (bool_decide_eq_true_2 _ eq_refl). cbn [negb]. cbn [set_tc_white set_tc_black tc_v4 tc_v6 tc_listen tc_port tc_white tc_black].
    destruct (tc_v4 c) eqn:Q1, (tc_v6 c) eqn:Q2; cbn [negb andb]; first [ split; [split; [done|rewrite S3, S4; by intros (? & ?)]|cbn; rewrite ?Q1, ?Q2; repeat (split; [first [assumption|reflexivity]|]); first [assumption|reflexivity]] | intros (_ & N); apply N; done ].
  - rewrite bool_decide_eq_false_2 in S5 by done. rewrite S5. cbn [negb orb].
    destruct (tc_v4 c) eqn:Q1, (tc_v6 c) eqn:Q2; cbn [negb andb]; first [ split; [split; [done|rewrite S3, S4; by intros (? & ?)]|cbn; rewrite ?Q1, ?Q2; repeat (split; [first [assumption|reflexivity]|]); first [assumption|reflexivity]] | intros (_ & N); apply N; done ].
Qed.
Notation ether_section := (ether_section any_netif no_netif read_rules make_ether).
Lemma ether_section_spec o :
  match ether_section o with
  | Some c => if_there (ether_valid read_rules make_ether) o /\ ether_wants any_netif no_netif read_rules make_ether o c
  | None => ~ if_there (ether_valid read_rules make_ether) o
  end.
Proof.
  destruct o as [t|]; [|done]. cbn [Fs_Model.ether_section if_there].
  pose proof (read_ether_spec (pt_children t) (set_ec_enabled true (set_ec_listen true (set_ec_mcast true (ether_defaults any_netif no_netif))))) as R.
  destruct (read_ether (pt_children t) _) as [c|]; [exact R|]. unfold ether_valid. by rewrite R.
Qed.
Lemma unix_section_spec t :
  match unix_section t with Some p => unix_valid t /\ unix_wants t p | None => ~ unix_valid t end.
Proof. pose proof (read_unix_spec (pt_children t) "/run/nfd/nfd.sock") as R. unfold unix_section. destruct (read_unix (pt_children t) _); [exact R|]. unfold unix_valid. by rewrite R. Qed.
Lemma ws_section_spec o :
  match ws_section o with Some c => if_there ws_valid o /\ ws_wants o c | None => ~ if_there ws_valid o end.
Proof.
  unfold ws_section. destruct o as [t|]; [|done]. pose proof (read_ws_spec (pt_children t) (WsConf true 9696 true true)) as R.
  destruct (read_ws (pt_children t) _) as [c|]; [|intros (K & _); congruence]. destruct R as (K & S). pose proof S as (_ & _ & S3 & S4). cbn in S3, S4. cbn [if_there]. unfold ws_valid.
  destruct (wc_v4 c), (wc_v6 c); cbn [negb andb]; first [ split; [split; [done|rewrite S3, S4; by intros (? & ?)]|exact S] | intros (_ & N); apply N; done ].
Qed.
Lemma general_section_spec o :
  match general_section o with Some m => if_there general_valid o /\ mark_wanted o m | None => ~ if_there general_valid o end.
Proof.
  destruct o as [t|]; [|done]. pose proof (read_general_spec (pt_children t) true) as R. cbn [general_section].
  destruct (read_general (pt_children t) true); [exact R|]. cbn. unfold general_valid. by rewrite R.
Qed.
Lemma netdev_section_spec o :
  match netdev_section parse_rule o with
  | Some rs => if_there (netdev_valid parse_rule) o /\ Forall2 (fun x r => parse_rule (snd x) = Some r) (match o with Some t => pt_children t | None => [] end) rs
  | None => ~ if_there (netdev_valid parse_rule) o
  end.
Proof.
  destruct o as [t|]; [|by split]. pose proof (read_netdev_spec (pt_children t)) as R. cbn [netdev_section].
  destruct (read_netdev parse_rule (pt_children t)); [exact R|]. cbn. unfold netdev_valid. by rewrite R.
Qed.
End Read.
