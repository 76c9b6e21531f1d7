(** Property C72: what the "tables" section of the configuration does *)
From Coq Require Import String Ascii.
From stdpp Require Import gmap strings.
From Verif Require Import Lib Name_Model Name_Proof Packet_Model Tree_Model Tree_Proof Tab_Model Tab_Spec Tab_At Tab_Sc Tab_Run Tab_Main Fw_Model Fw_Spec Fw_Inv Fw_Case3 Fw_Hist Fw_Main Fib_Props Fw_Ex Cfg_Model Cfg_Spec Cfg_Props Tc_Model Tc_Spec Tc_Proof.
From Verif Require Cs_Model Cs_Spec Cs_Run Cs_Props Dnl_Model.
Open Scope string_scope.
Open Scope list_scope.

(** the readers of the three single values *)
Lemma read_max t : match optional "cs_max_packets" parse_number DEFAULT_CS_MAX_PACKETS t with Some n => max_packets t n | None => ~ exists n, max_packets t n end.
Proof.
  unfold optional, max_packets. destruct (pt_child "cs_max_packets" t) as [c|]; [|done]. destruct (parse_number c) as [n|] eqn:E; [by apply C71_number|]. intros [n Hn]. apply C71_number in Hn. congruence.
Qed.
Lemma max_fun t n n' : max_packets t n -> max_packets t n' -> n = n'.
Proof. unfold max_packets. destruct (pt_child _ _) as [c|]; [|congruence]. intros H1%C71_number H2%C71_number. congruence. Qed.
Lemma read_policy t : match optional "cs_policy" (fun c => option_map Some (create_cs_policy (pt_value c))) None t with Some k => policy_is t k | None => ~ exists k, policy_is t k end.
Proof.
  unfold optional, policy_is, create_cs_policy. destruct (pt_child "cs_policy" t) as [c|]; [|done].
  destruct (String.eqb_spec (pt_value c) "lru") as [->|H1]; [by left|]. destruct (String.eqb_spec (pt_value c) "priority_fifo") as [->|H2]; [by right|]. simpl. by intros (k & [[? _]|[? _]]).
Qed.
Lemma policy_fun t k k' : policy_is t k -> policy_is t k' -> k = k'.
Proof. unfold policy_is. destruct (pt_child _ _) as [c|]; [|congruence]. intros [[H1 ->]|[H1 ->]] [[H2 ->]|[H2 ->]]; congruence. Qed.
Lemma read_unsol t : match optional "cs_unsolicited_policy" (fun c => create_unsolicited (pt_value c)) DEFAULT_UNSOLICITED t with Some u => unsolicited_is t u | None => ~ exists u, unsolicited_is t u end.
Proof.
  unfold optional, unsolicited_is, create_unsolicited. destruct (pt_child _ t) as [c|]; [|done].
  destruct (String.eqb_spec (pt_value c) "drop-all") as [->|H1]; [done|]. destruct (String.eqb_spec (pt_value c) "admit-local") as [->|H2]; [done|].
  destruct (String.eqb_spec (pt_value c) "admit-network") as [->|H3]; [done|]. destruct (String.eqb_spec (pt_value c) "admit-all") as [->|H4]; [done|]. by intros [[] ?].
Qed.
Lemma unsol_fun t u u' : unsolicited_is t u -> unsolicited_is t u' -> u = u'.
Proof. unfold unsolicited_is. destruct (pt_child _ _) as [c|]; [|congruence]. intros ->. by destruct u, u'. Qed.

Section props.
  Variable name_of : string -> option name.
  Variable can_create : name -> bool.
  Variable sort_nexthops : list nexthop -> list nexthop.
  Variable create_strategy : name -> create_result.
  Variable same_type : name -> name -> bool.
  Variable make_entry : name -> N -> Dnl_Model.fingerprint.
  Variable rand : nat -> nat.
  Variable face_order : list N -> list N.
  Variable strategies : name -> strategy.
  Notation step := (fw_step sort_nexthops create_strategy same_type make_entry rand face_order strategies).
  Notation reachable := (fw_reachable sort_nexthops create_strategy same_type make_entry rand face_order strategies).
  Hypothesis W : world_ok sort_nexthops same_type face_order.
  Notation inv_of R := (proj1 (reachable_inv _ _ _ _ _ _ _ W _ R)).
  Notation tables_config := (tables_config name_of can_create create_strategy same_type).
  Notation insert_choices := (insert_choices create_strategy same_type).
  Notation wellformed := (wellformed name_of can_create).
  Notation chooses := (chooses name_of).
  Notation settable := (settable create_strategy).
  Notation regions_ok := (regions_ok name_of).
  Notation region_listed := (region_listed name_of).

  Lemma set_t_id s : set_t (fw_t s) s = s.
  Proof. by destruct s. Qed.
  Lemma sc_one s p x : reachable s -> exists T res, sc_insert create_strategy same_type p x (fw_t s) = Some (T, res) /\
    reachable (set_t T s) /\ same_elsewhere s (set_t T s) /\ (res = SC_OK <-> settable p x) /\ (res <> SC_OK -> T = fw_t s) /\
    (res = SC_OK -> exists i, create_strategy x = Created i /\ forall q, sc_at T q = if decide (q = p) then Some i else sc_at (fw_t s) q).
  Proof.
    intros R. pose proof (inv_of R) as I. pose proof (iv_tab _ I) as It.
    destruct (sc_insert_ok create_strategy same_type (wo_type _ _ _ W) p x (fw_t s) (ti_tree _ It) (ti_sc _ It) (iv_root _ I)) as (T & res & E & H1 & H2 & H3 & H4 & H5 & H6).
    assert (R' : reachable (set_t T s)). { apply (fw_reach_step _ _ _ _ _ _ _ s (EvStrategySet p x) (set_t T s)); [done|done|]. unfold fw_step, fw_event, tab. by rewrite E. }
    exists T, res. split; [done|]. split; [done|]. split; [|split; [|split]].
    - assert (Hd : res = SC_OK \/ res <> SC_OK) by (destruct res; ((by left) || (by right))). destruct Hd as [Hd|Hd]; [|rewrite (H5 Hd), set_t_id; apply elsewhere_refl].
      destruct (H6 Hd) as (i & _ & Hq & Hr). split; try done; simpl.
      + apply H3.
      + intros n. rewrite !fib_at_att. destruct (Hr n) as (b & _ & ->). by destruct b.
      + assert (He : env s (set_t T s)). { apply (env_info same_type); [done|done|done|done| |done]. rewrite Hq. case_decide; [by eexists|apply I]. }
        intros k. pose proof (en_pits _ _ He k) as Hp. simpl in Hp. inversion Hp; split; intros []; eauto.
    - rewrite H4. unfold Tc_Spec.settable. destruct (Nat.ltb_spec 32 (length p)); [split; [done|intros [? _]; lia]|]. destruct (create_strategy x) as [i| |]; split; try done; [intros _; split; [done|by eexists]|intros [_ [? ?]]; done|intros [_ [? ?]]; done].
    - done.
    - intros Hd. destruct (H6 Hd) as (i & ? & ? & _). by exists i.
  Qed.

  (** choices are set in order up to the first that cannot be *)
  Lemma insert_choices_ok l s : reachable s -> StronglySorted below l ->
    exists s' ok, insert_choices l s = Some (s', ok) /\ reachable s' /\ same_elsewhere s s' /\ (fw_cs s' = fw_cs s /\ fw_unsol s' = fw_unsol s /\ fw_regions s' = fw_regions s) /\
      (forall p, p ∉ fst <$> l -> sc_at (fw_t s') p = sc_at (fw_t s) p) /\
      if ok then forall p x, (p, x) ∈ l -> exists i, settable p x /\ create_strategy x = Created i /\ sc_at (fw_t s') p = Some i
      else exists p x, (p, x) ∈ l /\ ~ settable p x /\ forall q y, (q, y) ∈ l ->
           match name_cmp q p with
           | Lt => exists i, settable q y /\ create_strategy y = Created i /\ sc_at (fw_t s') q = Some i
           | _ => sc_at (fw_t s') q = sc_at (fw_t s) q
           end.
  Proof.
    intros R Hs. revert s R. induction Hs as [|[p x] l Hs IH Hf]; intros s R; cbn [Tc_Model.insert_choices].
    - exists s, true. do 4 (split; [done|]). split; [done|]. by intros p x ?%elem_of_nil.
    - destruct (sc_one s p x R) as (T & res & -> & R1 & E1 & Hres & Hno & Hok).
      assert (Hpl : p ∉ fst <$> l). { intros Hin. apply elem_of_list_fmap in Hin as ([q' y'] & -> & Hin). rewrite Forall_forall in Hf. by apply Hf, below_irrefl in Hin. }
      assert (Hdec : res = SC_OK \/ res <> SC_OK) by (destruct res; ((by left) || (by right))). destruct Hdec as [->|Hd].
      + destruct (IH _ R1) as (s' & ok & E & R' & E' & (C1 & C2 & C3) & Hout & Hin). rewrite E. exists s', ok. split; [done|]. split; [done|]. split; [by eapply elsewhere_trans|]. split; [done|].
        destruct (Hok eq_refl) as (i & Hc & Hq). split.
        * intros q Hq'. cbn [fmap list_fmap fst] in Hq'. apply not_elem_of_cons in Hq' as [Hne Hq']. rewrite Hout by done. simpl. rewrite Hq. by rewrite decide_False.
        * assert (Hp : exists i, settable p x /\ create_strategy x = Created i /\ sc_at (fw_t s') p = Some i).
          { exists i. split; [by apply Hres|]. split; [done|]. rewrite Hout by done. simpl. rewrite Hq. by rewrite decide_True. }
          destruct ok.
          -- intros q y [[= -> ->]|Hq']%elem_of_cons; [done|by apply Hin].
          -- destruct Hin as (p1 & x1 & H1 & H2 & H3). exists p1, x1. split; [by right|]. split; [done|].
             assert (Hlt : name_cmp p p1 = Lt) by (rewrite Forall_forall in Hf; by apply (Hf _ H1)).
             intros q y [[= -> ->]|Hq']%elem_of_cons; [by rewrite Hlt|]. specialize (H3 q y Hq'). destruct (name_cmp q p1); [|done|].
             ++ simpl in H3. rewrite H3, Hq, decide_False; [done|]. intros ->. apply Hpl. by apply (elem_of_list_fmap_1 fst) in Hq'.
             ++ simpl in H3. rewrite H3, Hq, decide_False; [done|]. intros ->. apply Hpl. by apply (elem_of_list_fmap_1 fst) in Hq'.
      + exists (set_t T s), false. rewrite (Hno Hd), set_t_id in *. split; [by destruct res|]. split; [done|]. split; [apply elsewhere_refl|]. split; [done|]. split; [done|].
        exists p, x. split; [left|]. split; [by rewrite <-Hres|]. intros q y [[= -> ->]|Hq']%elem_of_cons; [by rewrite (cmp_refl name_cmp_ok)|].
        rewrite Forall_forall in Hf. specialize (Hf _ Hq'). unfold below in Hf. simpl in Hf. apply (cmp_lt_gt name_cmp_ok) in Hf. by rewrite Hf.
  Qed.
  (** regions *)
  Lemma insert_regions_ok l s : reachable s -> exists s' ok, insert_regions name_of l s = (s', ok) /\ reachable s' /\ same_elsewhere s s' /\ fw_t s' = fw_t s /\ fw_cs s' = fw_cs s /\ fw_unsol s' = fw_unsol s /\
    (ok = true <-> forall k v, (k, v) ∈ l -> is_Some (name_of k)) /\
    (forall r, r ∈ fw_regions s' -> r ∈ fw_regions s \/ exists k v, (k, v) ∈ l /\ name_of k = Some r) /\
    (forall r, r ∈ fw_regions s -> r ∈ fw_regions s') /\
    (ok = true -> forall k v r, (k, v) ∈ l -> name_of k = Some r -> r ∈ fw_regions s').
  Proof.
    intros R. revert s R. induction l as [|[k v] l IH]; intros s R; cbn [insert_regions].
    - exists s, true. do 6 (split; [done|]). split; [split; [by intros _ k v ?%elem_of_nil|done]|]. split; [by left|]. split; [done|]. by intros _ k v r ?%elem_of_nil.
    - destruct (name_of k) as [r|] eqn:Ek.
      + set (s1 := if existsb _ _ then s else _).
        assert (H1 : reachable s1 /\ same_elsewhere s s1 /\ fw_t s1 = fw_t s /\ fw_cs s1 = fw_cs s /\ fw_unsol s1 = fw_unsol s /\ forall x, x ∈ fw_regions s1 <-> x = r \/ x ∈ fw_regions s).
        { unfold s1. destruct (existsb (name_eqb r) (fw_regions s)) eqn:Ex.
          - do 5 (split; [done|]). intros x. split; [by right|]. intros [->|?]; [|done]. apply existsb_exists in Ex as (r' & Hr'%elem_of_list_In & He). apply name_eqb_eq in He as ->. done.
          - split; [apply (fw_reach_step _ _ _ _ _ _ _ s (EvRegions (r :: fw_regions s))); done|]. split; [by split|]. do 3 (split; [done|]). intros x. simpl. by rewrite elem_of_cons. }
        destruct H1 as (R1 & E1 & T1 & C1 & U1 & G1). destruct (IH _ R1) as (s' & ok & -> & R' & E' & T' & C' & U' & K1 & K2 & K3 & K4). exists s', ok. split; [done|]. split; [done|]. split; [by eapply elsewhere_trans|].
        split; [congruence|]. split; [congruence|]. split; [congruence|]. split; [|split; [|split]].
        * rewrite K1. split; [intros H k' v' [[= -> ->]|?]%elem_of_cons; [by eexists|by eapply H]|]. intros H k' v' Hin. apply (H k' v'). by right.
        * intros x Hx. apply K2 in Hx as [Hx|(k' & v' & ? & ?)]; [apply G1 in Hx as [->|?]; [right; exists k, v; split; [left|done]|by left]|right; exists k', v'; split; [by right|done]].
        * intros x Hx. apply K3, G1. by right.
        * intros Hok k' v' x [[= -> ->]|Hin]%elem_of_cons Hk'; [apply K3, G1; left; congruence|by eapply K4].
      + exists s, false. do 6 (split; [done|]). split; [split; [done|]; intros H; destruct (H k v) as [? ?]; [left|congruence]|]. split; [by left|]. split; [done|done].
  Qed.

  Lemma choices_lines t : choices_ok name_of can_create t <-> match pt_child "strategy_choice" t with None => True | Some c => lines_ok name_of can_create (pt_children c) end.
  Proof.
    unfold choices_ok, lines_ok. destruct (pt_child "strategy_choice" t) as [c|]; [|done]. split; [intros H; by apply (H c)|by intros H c' [= <-]].
  Qed.
  (** C72: a dry run changes nothing; it accepts exactly the well-formed sections *)
  Theorem C72_dry t s : exists ok, tables_config true t s = Some (s, ok) /\ (ok = true <-> wellformed t).
  Proof.
    unfold Tc_Model.tables_config, Tc_Spec.wellformed. destruct s as [s c]. cbn [tc_fw tc_configured].
    pose proof (read_max t) as H1. destruct (optional "cs_max_packets" _ _ t) as [n|]; [|exists false; split; [done|]; split; [done|by intros (? & _)]].
    pose proof (read_policy t) as H2. destruct (optional "cs_policy" _ _ t) as [k|]; [|exists false; split; [done|]; split; [done|by intros (_ & ? & _)]].
    pose proof (read_unsol t) as H3. destruct (optional "cs_unsolicited_policy" _ _ t) as [u|]; [|exists false; split; [done|]; split; [done|by intros (_ & _ & ? & _)]].
    setoid_rewrite choices_lines. destruct (pt_child "strategy_choice" t) as [sc|].
    - unfold process_choices. pose proof (read_ok name_of can_create (pt_children sc)) as H4. destruct (read_choices _ _ _ _) as [r|].
      + exists true. split; [destruct (pt_child "network_region" t); done|]. split; [intros _|done]. split; [by exists n|]. split; [by exists k|]. split; [by exists u|]. apply H4.
      + exists false. split; [done|]. split; [done|]. by intros (_ & _ & _ & ?).
    - exists true. split; [destruct (pt_child "network_region" t); done|]. split; [intros _|done]. split; [by exists n|]. split; [by exists k|]. split; [by exists u|done].
  Qed.

  Lemma cs_op_ok s (o : Cs_Model.cs_op) : reachable s -> ev_ok s (EvCs o) -> exists c r, Cs_Model.cs_step (fw_cs s) o = Some (c, r) /\
    reachable (set_cs c s) /\ Cs_Model.cs_limit c = Cs_Spec.new_limit (Cs_Model.cs_limit (fw_cs s)) o /\ (N.of_nat (length (Cs_Model.cs_table c)) <= Cs_Model.cs_limit c)%N.
  Proof.
    intros R Ho. destruct (iv_cs _ (inv_of R)) as (limit & ops & rs & _ & E).
    destruct (Cs_Props.C01_capacity limit (ops ++ [o])) as (c & rs' & E' & Hl & Hn). rewrite Cs_Run.cs_run_app, E in E'. cbn [Cs_Model.cs_run] in E'.
    destruct (Cs_Model.cs_step (fw_cs s) o) as [[c' r]|] eqn:Es; [|done]. injection E' as -> _. exists c, r. split; [done|]. split; [|split; [|done]].
    - apply (fw_reach_step _ _ _ _ _ _ _ s (EvCs o)); [done|done|]. unfold fw_step. simpl. by rewrite Es.
    - destruct (Cs_Props.C01_capacity limit ops) as (c0 & rs0 & E0 & Hl0 & _). rewrite E in E0. injection E0 as <- <-. by rewrite Hl, foldl_app, Hl0.
  Qed.
  (** the content store and the policy for unsolicited Data, in the end *)
  Lemma apply_ok n k u s : reachable s -> exists s', tables_apply n k u s = Some s' /\ reachable s' /\ same_elsewhere s s' /\ fw_t s' = fw_t s /\ fw_regions s' = fw_regions s /\ fw_unsol s' = u /\
    Cs_Model.cs_step (fw_cs s) (Cs_Model.OConfigure n k) = Some (fw_cs s', Cs_Model.RNone) /\ Cs_Model.cs_limit (fw_cs s') = n /\ (N.of_nat (length (Cs_Model.cs_table (fw_cs s'))) <= n)%N.
  Proof.
    intros R. destruct (cs_op_ok s (Cs_Model.OConfigure n k) R) as (c & r & E & R' & Hl & Hn); [done|]. cbn [Cs_Model.cs_step] in E. unfold tables_apply.
    destruct (Cs_Model.cs_configure n k (fw_cs s)) as [c'|] eqn:Ec; [|done]. injection E as -> <-. exists (set_unsol u (set_cs c s)). split; [done|]. split; [by apply (fw_reach_step _ _ _ _ _ _ _ (set_cs c s) (EvUnsol u))|].
    split; [by split|]. split; [done|]. split; [done|]. split; [done|]. split; [cbn [Cs_Model.cs_step]; by rewrite Ec|]. cbn [Cs_Spec.new_limit] in Hl. cbn [fw_cs set_cs set_unsol]. split; [done|]. by rewrite Hl in Hn.
  Qed.

  (** the strategies chosen are set, all other prefixes have the choice they had *)
  Definition choices_set (t : ptree) (s s' : fw) : Prop :=
    (forall p x, chooses t p x -> exists i, create_strategy x = Created i /\ sc_at (fw_t s') p = Some i) /\
    (forall p, (forall x, ~ chooses t p x) -> sc_at (fw_t s') p = sc_at (fw_t s) p).
  Definition content_same (s s' : tc) : Prop :=
    tc_configured s' = tc_configured s /\ fw_cs (tc_fw s') = fw_cs (tc_fw s) /\ fw_unsol (tc_fw s') = fw_unsol (tc_fw s).
  (** the three ways to fail, and success *)
  Lemma config_cases t s : reachable (tc_fw s) -> exists s' ok, tables_config false t s = Some (s', ok) /\ reachable (tc_fw s') /\ same_elsewhere (tc_fw s) (tc_fw s') /\
    ((ok = false /\ ~ wellformed t /\ s' = s) \/
     (ok = false /\ wellformed t /\ content_same s s' /\ fw_regions (tc_fw s') = fw_regions (tc_fw s) /\
        (forall p, (forall x, ~ chooses t p x) -> sc_at (fw_t (tc_fw s')) p = sc_at (fw_t (tc_fw s)) p) /\
        exists p x, chooses t p x /\ ~ settable p x /\ forall q y, chooses t q y ->
           match name_cmp q p with
           | Lt => exists i, create_strategy y = Created i /\ sc_at (fw_t (tc_fw s')) q = Some i
           | _ => sc_at (fw_t (tc_fw s')) q = sc_at (fw_t (tc_fw s)) q
           end) \/
     (ok = false /\ wellformed t /\ (forall p x, chooses t p x -> settable p x) /\ choices_set t (tc_fw s) (tc_fw s') /\ content_same s s' /\
        ~ regions_ok t /\ forall r, r ∈ fw_regions (tc_fw s') -> region_listed t r) \/
     (ok = true /\ wellformed t /\ (forall p x, chooses t p x -> settable p x) /\ choices_set t (tc_fw s) (tc_fw s') /\ regions_ok t /\
        tc_configured s' = true /\
        (exists n k, max_packets t n /\ policy_is t k /\ Cs_Model.cs_step (fw_cs (tc_fw s)) (Cs_Model.OConfigure n k) = Some (fw_cs (tc_fw s'), Cs_Model.RNone) /\
           Cs_Model.cs_limit (fw_cs (tc_fw s')) = n /\ (N.of_nat (length (Cs_Model.cs_table (fw_cs (tc_fw s')))) <= n)%N) /\
        unsolicited_is t (fw_unsol (tc_fw s')) /\
        match pt_child "network_region" t with
        | None => fw_regions (tc_fw s') = fw_regions (tc_fw s)
        | Some _ => forall r, r ∈ fw_regions (tc_fw s') <-> region_listed t r
        end)).
  Proof.
    intros R. unfold Tc_Model.tables_config.
    assert (Hbad : ~ wellformed t -> exists s' ok, Some (s, false) = Some (s', ok) /\ reachable (tc_fw s') /\ same_elsewhere (tc_fw s) (tc_fw s') /\ (ok = false /\ ~ wellformed t /\ s' = s)).
    { intros H. exists s, false. split; [done|]. split; [done|]. split; [apply elsewhere_refl|done]. }
    pose proof (read_max t) as H1. destruct (optional "cs_max_packets" _ _ t) as [n|]; [|destruct Hbad as (s' & ok & E & ? & ? & ?); [by intros (? & _)|exists s', ok; split; [done|]; split; [done|]; split; [done|]; by left]].
    pose proof (read_policy t) as H2. destruct (optional "cs_policy" _ _ t) as [k|]; [|destruct Hbad as (s' & ok & E & ? & ? & ?); [by intros (_ & ? & _)|exists s', ok; split; [done|]; split; [done|]; split; [done|]; by left]].
    pose proof (read_unsol t) as H3. destruct (optional "cs_unsolicited_policy" _ _ t) as [u|]; [|destruct Hbad as (s' & ok & E & ? & ? & ?); [by intros (_ & _ & ? & _)|exists s', ok; split; [done|]; split; [done|]; split; [done|]; by left]].
    (* the choices *)
    assert (Hsc : (match pt_child "strategy_choice" t with None => Some (tc_fw s, true) | Some c => process_choices name_of can_create create_strategy same_type false c (tc_fw s) end = Some (tc_fw s, false) /\ ~ choices_ok name_of can_create t) \/
      (choices_ok name_of can_create t /\ exists s1 ok1, match pt_child "strategy_choice" t with None => Some (tc_fw s, true) | Some c => process_choices name_of can_create create_strategy same_type false c (tc_fw s) end = Some (s1, ok1) /\
        reachable s1 /\ same_elsewhere (tc_fw s) s1 /\ (fw_cs s1 = fw_cs (tc_fw s) /\ fw_unsol s1 = fw_unsol (tc_fw s) /\ fw_regions s1 = fw_regions (tc_fw s)) /\
        (forall p, (forall x, ~ chooses t p x) -> sc_at (fw_t s1) p = sc_at (fw_t (tc_fw s)) p) /\
        if ok1 then (forall p x, chooses t p x -> settable p x) /\ choices_set t (tc_fw s) s1
        else exists p x, chooses t p x /\ ~ settable p x /\ forall q y, chooses t q y ->
           match name_cmp q p with
           | Lt => exists i, create_strategy y = Created i /\ sc_at (fw_t s1) q = Some i
           | _ => sc_at (fw_t s1) q = sc_at (fw_t (tc_fw s)) q
           end)).
    { rewrite choices_lines. unfold choices_set, Tc_Spec.chooses. destruct (pt_child "strategy_choice" t) as [c|].
      - unfold process_choices. pose proof (read_ok name_of can_create (pt_children c)) as H4. destruct (read_choices _ _ _ _) as [l|]; [right|by left].
        destruct H4 as (H4 & H5 & H6). split; [done|]. destruct (insert_choices_ok l (tc_fw s) R H5) as (s1 & ok1 & E & R1 & E1 & C1 & Hout & Hin). exists s1, ok1. split; [done|]. split; [done|]. split; [done|]. split; [done|].
        assert (Hno : forall p, (forall x, ~ exists c0 k0 v, Some c = Some c0 /\ (k0, v) ∈ pt_children c0 /\ name_of k0 = Some p /\ name_of (pt_value v) = Some x) -> sc_at (fw_t s1) p = sc_at (fw_t (tc_fw s)) p).
        { intros p Hp. apply Hout. intros Hin'. apply elem_of_list_fmap in Hin' as ([p' x] & -> & Hin'). apply H6 in Hin' as (k0 & v & ? & ? & ?). apply (Hp x). by exists c, k0, v. }
        assert (Hl : forall p x, (exists c0 k0 v, Some c = Some c0 /\ (k0, v) ∈ pt_children c0 /\ name_of k0 = Some p /\ name_of (pt_value v) = Some x) <-> (p, x) ∈ l).
        { intros p x. rewrite H6. split; [intros (c0 & k0 & v & [= <-] & ?); by exists k0, v|intros (k0 & v & ?); by exists c, k0, v]. }
        split; [done|]. destruct ok1.
        + split; [intros p x Hp%Hl; by destruct (Hin p x Hp) as (i & ? & _)|]. split; [|done]. intros p x Hp%Hl. destruct (Hin p x Hp) as (i & _ & ? & ?). by exists i.
        + destruct Hin as (p & x & Hp & Hns & Hq). exists p, x. split; [by apply Hl|]. split; [done|]. intros q y Hqy%Hl. specialize (Hq q y Hqy). destruct (name_cmp q p); [done| |done]. destruct Hq as (i & _ & ? & ?). by exists i.
      - right. split; [done|]. exists (tc_fw s), true. split; [done|]. split; [done|]. split; [apply elsewhere_refl|]. split; [done|]. split; [done|]. split; [by intros p x (? & ? & ? & ? & _)|]. split; [by intros p x (? & ? & ? & ? & _)|done]. }
    destruct Hsc as [[-> Hc]|(Hc & s1 & ok1 & -> & R1 & E1 & (C1 & U1 & G1) & Hno & Hok1)].
    { exists (Tc (tc_fw s) (tc_configured s)), false. destruct s as [s c]. split; [done|]. split; [done|]. split; [apply elsewhere_refl|]. left. split; [done|]. split; [by intros (_ & _ & _ & ?)|done]. }
    assert (Hw : wellformed t) by (split; [by exists n|]; split; [by exists k|]; split; [by exists u|done]).
    destruct ok1.
    2: { exists (Tc s1 (tc_configured s)), false. split; [done|]. split; [done|]. split; [done|]. right; left. split; [done|]. split; [done|]. split; [done|]. done. }
    destruct Hok1 as [Hset Hch].
    (* the regions *)
    assert (Hrg : exists s2 ok2, match pt_child "network_region" t with None => (s1, true) | Some c => process_regions name_of false c s1 end = (s2, ok2) /\
      reachable s2 /\ same_elsewhere s1 s2 /\ fw_t s2 = fw_t s1 /\ fw_cs s2 = fw_cs s1 /\ fw_unsol s2 = fw_unsol s1 /\ (ok2 = true <-> regions_ok t) /\
      match pt_child "network_region" t with
      | None => fw_regions s2 = fw_regions s1
      | Some _ => (forall r, r ∈ fw_regions s2 -> region_listed t r) /\ (ok2 = true -> forall r, region_listed t r -> r ∈ fw_regions s2)
      end).
    { unfold Tc_Spec.regions_ok, Tc_Spec.region_listed. destruct (pt_child "network_region" t) as [c|].
      - unfold process_regions. assert (R0 : reachable (set_regions [] s1)) by (by apply (fw_reach_step _ _ _ _ _ _ _ s1 (EvRegions []))).
        destruct (insert_regions_ok (pt_children c) _ R0) as (s2 & ok2 & -> & R2 & E2 & T2 & C2 & U2 & K1 & K2 & K3 & K4). exists s2, ok2. split; [done|]. split; [done|]. split; [by destruct E2; split|]. split; [done|]. split; [done|]. split; [done|]. split; [|split].
        + rewrite K1. split; [intros H c' k' v' [= <-]; apply H|intros H k' v' Hin; by eapply H].
        + intros r Hr. apply K2 in Hr as [Hr|(k' & v' & ? & ?)]; [by apply elem_of_nil in Hr|]. by exists c, k', v'.
        + intros Hok r (c' & k' & v' & [= <-] & Hin & Hk). by eapply K4.
      - exists s1, true. do 2 (split; [done|]). split; [apply elsewhere_refl|]. do 3 (split; [done|]). split; [|done]. split; [by intros _ ? ? ? ?|done]. }
    destruct Hrg as (s2 & ok2 & -> & R2 & E2 & T2 & C2 & U2 & K1 & K2).
    assert (E12 : same_elsewhere (tc_fw s) s2) by (by eapply elsewhere_trans).
    assert (Hch2 : choices_set t (tc_fw s) s2) by (destruct Hch as [Ha Hb]; split; [intros p x Hp; destruct (Ha p x Hp) as (i & ? & ?); exists i; by rewrite T2|intros p Hp; rewrite T2; by apply Hb]).
    destruct ok2.
    2: { assert (Hnr : ~ regions_ok t) by (by intros ?%K1). exists (Tc s2 (tc_configured s)), false. split; [done|]. split; [done|]. split; [done|]. right; right; left. split; [done|]. split; [done|]. split; [done|]. split; [done|].
         split; [split; [done|]; simpl; split; congruence|]. split; [done|]. destruct (pt_child "network_region" t) as [c|] eqn:Er; [apply K2|]. exfalso. apply Hnr. intros c k' v'. by rewrite Er. }
    destruct (apply_ok n k u s2 R2) as (s3 & -> & R3 & E3 & T3 & G3 & U3 & S3 & L3 & N3).
    exists (Tc s3 true), true. split; [done|]. split; [done|]. split; [by eapply elsewhere_trans|]. right; right; right. split; [done|]. split; [done|]. split; [done|]. split.
    { destruct Hch2 as [Ha Hb]. split; [intros p x Hp; destruct (Ha p x Hp) as (i & ? & ?); exists i; cbn [tc_fw]; by rewrite T3|intros p Hp; cbn [tc_fw]; rewrite T3; by apply Hb]. }
    split; [by apply K1|]. split; [done|]. split.
    { exists n, k. split; [done|]. split; [done|]. cbn [tc_fw]. split; [|done]. rewrite C2, C1 in S3. done. }
    split; [cbn [tc_fw]; by rewrite U3|]. cbn [tc_fw]. rewrite G3. destruct (pt_child "network_region" t); [|congruence]. destruct K2 as [K2 K2']. intros r. split; [apply K2|by apply K2'].
  Qed.

  (** C72: a section is put into effect exactly if it is well-formed, the strategy choice table takes its choices and its
      regions are names; no assertion fails, and the forwarder is in a state that it can reach by single changes *)
  Theorem C72_real t s : reachable (tc_fw s) -> exists s' ok, tables_config false t s = Some (s', ok) /\ reachable (tc_fw s') /\ same_elsewhere (tc_fw s) (tc_fw s') /\
    (ok = true <-> wellformed t /\ (forall p x, chooses t p x -> settable p x) /\ regions_ok t).
  Proof.
    intros R. destruct (config_cases t s R) as (s' & ok & E & R' & E' & H). exists s', ok. split; [done|]. split; [done|]. split; [done|].
    destruct H as [(-> & ? & _)|[(-> & _ & _ & _ & _ & p & x & Hp & Hns & _)|[(-> & _ & _ & _ & _ & ? & _)|(-> & ? & ? & _ & ? & _)]]]; [split; [done|]; by intros (? & _)|split; [done|]; intros (_ & H & _); destruct (Hns (H p x Hp))|split; [done|]; by intros (_ & _ & ?)|done].
  Qed.
  (** C72: what a section puts into effect: the capacity it gives, or 65536; its replacement policy, if it gives one and the
      content store is empty then (this is what [OConfigure] means in C01 to C07); its policy for unsolicited Data, or
      dropping; its regions in place of those before, if it has any; its strategies *)
  Theorem C72_applied t s s' : reachable (tc_fw s) -> tables_config false t s = Some (s', true) ->
    tc_configured s' = true /\
    (forall n k, max_packets t n -> policy_is t k ->
       Cs_Model.cs_step (fw_cs (tc_fw s)) (Cs_Model.OConfigure n k) = Some (fw_cs (tc_fw s'), Cs_Model.RNone) /\
       Cs_Model.cs_limit (fw_cs (tc_fw s')) = n /\ (N.of_nat (length (Cs_Model.cs_table (fw_cs (tc_fw s')))) <= n)%N) /\
    unsolicited_is t (fw_unsol (tc_fw s')) /\
    match pt_child "network_region" t with
    | None => fw_regions (tc_fw s') = fw_regions (tc_fw s)
    | Some _ => forall r, r ∈ fw_regions (tc_fw s') <-> region_listed t r
    end /\
    (forall p x, chooses t p x -> exists i, create_strategy x = Created i /\ sc_at (fw_t (tc_fw s')) p = Some i) /\
    (forall p, (forall x, ~ chooses t p x) -> sc_at (fw_t (tc_fw s')) p = sc_at (fw_t (tc_fw s)) p).
  Proof.
    intros R E. destruct (config_cases t s R) as (s1 & ok & E1 & R' & E' & H). rewrite E in E1. injection E1 as <- <-.
    destruct H as [(? & _)|[(? & _)|[(? & _)|(_ & _ & _ & [Hc1 Hc2] & _ & Hd & (n & k & Hn & Hk & Hs & Hl & Hlen) & Hu & Hr)]]]; [done..|]. split; [done|]. split; [|done].
    intros n' k' Hn' Hk'. rewrite (max_fun _ _ _ Hn' Hn), (policy_fun _ _ _ Hk' Hk). done.
  Qed.
  (** C72: what is different after a section that failed: nothing if it is not well-formed; else the content store and the
      policy for unsolicited Data are as before, and of the choices those before (by name) the first that cannot be set
      have been set, or all of them if a region is not a name *)
  Theorem C72_failed t s s' : reachable (tc_fw s) -> tables_config false t s = Some (s', false) ->
    (~ wellformed t -> s' = s) /\
    tc_configured s' = tc_configured s /\ fw_cs (tc_fw s') = fw_cs (tc_fw s) /\ fw_unsol (tc_fw s') = fw_unsol (tc_fw s) /\
    (forall p, (forall x, ~ chooses t p x) -> sc_at (fw_t (tc_fw s')) p = sc_at (fw_t (tc_fw s)) p) /\
    (wellformed t ->
      (exists p x, chooses t p x /\ ~ settable p x /\ fw_regions (tc_fw s') = fw_regions (tc_fw s) /\ forall q y, chooses t q y ->
         match name_cmp q p with
         | Lt => exists i, create_strategy y = Created i /\ sc_at (fw_t (tc_fw s')) q = Some i
         | _ => sc_at (fw_t (tc_fw s')) q = sc_at (fw_t (tc_fw s)) q
         end) \/
      (~ regions_ok t /\ (forall r, r ∈ fw_regions (tc_fw s') -> region_listed t r) /\
       forall p x, chooses t p x -> exists i, create_strategy x = Created i /\ sc_at (fw_t (tc_fw s')) p = Some i)).
  Proof.
    intros R E. destruct (config_cases t s R) as (s1 & ok & E1 & R' & E' & H). rewrite E in E1. injection E1 as <- <-.
    destruct H as [(_ & Hw & ->)|[(_ & Hw & (? & ? & ?) & Hr & Hno & p & x & ?)|[(_ & Hw & _ & [Hc1 Hc2] & (? & ? & ?) & Hnr & Hr)|(? & _)]]]; [done| | |done].
    - split; [done|]. do 3 (split; [done|]). split; [done|]. intros _. left. exists p, x. naive_solver.
    - split; [done|]. do 3 (split; [done|]). split; [done|]. intros _. right. done.
  Qed.
  (** C72: without a "tables" section the capacity is 65536 and unsolicited Data are dropped; with one, nothing is changed *)
  Theorem C72_ensure s : reachable (tc_fw s) -> exists s', ensure_configured s = Some s' /\ reachable (tc_fw s') /\ tc_configured s' = true /\ same_elsewhere (tc_fw s) (tc_fw s') /\
    fw_t (tc_fw s') = fw_t (tc_fw s) /\ fw_regions (tc_fw s') = fw_regions (tc_fw s) /\
    if tc_configured s then s' = s
    else Cs_Model.cs_step (fw_cs (tc_fw s)) (Cs_Model.OSetLimit 65536) = Some (fw_cs (tc_fw s'), Cs_Model.RNone) /\ Cs_Model.cs_limit (fw_cs (tc_fw s')) = 65536%N /\ fw_unsol (tc_fw s') = DropAll.
  Proof.
    intros R. unfold ensure_configured. destruct (tc_configured s) eqn:Ec; [exists s; split; [done|]; split; [done|]; split; [done|]; split; [apply elsewhere_refl|done]|].
    destruct (cs_op_ok (tc_fw s) (Cs_Model.OSetLimit 65536) R) as (c & r & E & R' & Hl & Hn); [done|]. cbn [Cs_Model.cs_step] in E. unfold DEFAULT_CS_MAX_PACKETS.
    destruct (Cs_Model.cs_set_limit 65536 (fw_cs (tc_fw s))) as [c'|] eqn:Es; [|done]. injection E as -> <-. eexists. split; [done|]. cbn [tc_fw]. split; [by apply (fw_reach_step _ _ _ _ _ _ _ (set_cs c (tc_fw s)) (EvUnsol DropAll))|].
    split; [done|]. split; [by split|]. split; [done|]. split; [done|]. split; [cbn [Cs_Model.cs_step]; by rewrite Es|]. done.
  Qed.
End props.
Print Assumptions C72_dry.
Print Assumptions C72_real.
Print Assumptions C72_applied.
Print Assumptions C72_failed.
Print Assumptions C72_ensure.

(** * An example *)
Definition x_names (x : string) : option name :=
  if String.eqb x "/" then Some [] else if String.eqb x "/a" then Some [gc 97] else if String.eqb x "/b" then Some [gc 98]
  else if String.eqb x "/s" then Some [gc 115] else if String.eqb x "/t" then Some [gc 116] else None.
(** "/t" is a strategy that does not take its parameters *)
Definition x_create (n : name) : create_result := if name_eqb n [gc 116] then CreateException else ex_create n.
Definition leaf (k v : string) : string * ptree := (k, PTree v []).
Definition x_good : ptree := PTree "" [leaf "cs_max_packets" "10"; leaf "cs_policy" "priority_fifo"; ("strategy_choice", PTree "" [leaf "/b" "/s"; leaf "/" "/s"]); ("network_region", PTree "" [leaf "/a" ""])].
Definition x_bad : ptree := PTree "" [leaf "cs_max_packets" "10"; ("strategy_choice", PTree "" [leaf "/b" "/t"; leaf "/a" "/s"])].
Definition x_config (dry : bool) (t : ptree) (s : fw) : option (tc * bool) := tables_config x_names (fun _ => true) x_create name_eqb dry t (Tc s false).
Definition x_view (r : option (tc * bool)) : option (bool * N * unsol_policy * list name * list (option name)) :=
  option_map (fun r => let s := tc_fw (fst r) in (snd r, Cs_Model.cs_limit (fw_cs s), fw_unsol s, fw_regions s, map (fun n => sc_at (fw_t s) n) [[]; [gc 97]; [gc 98]])) r.
Notation x_reachable := (fw_reachable isort x_create name_eqb ex_hash ex_rand ex_order ex_strategies).
Definition x_start : option fw := fw_new x_create [] 100.
Definition x_run (dry : bool) (t : ptree) : option (bool * N * unsol_policy * list name * list (option name)) := match x_start with Some s => x_view (x_config dry t s) | None => None end.
Lemma x_start_ok : exists s, x_start = Some s /\ x_reachable s.
Proof.
  destruct x_start as [s|] eqn:E.
  - exists s. split; [done|]. by eapply fw_reach_new.
  - exfalso. assert (H : match x_start with Some _ => true | None => false end = true) by (vm_compute; reflexivity). by rewrite E in H.
Qed.
(** a section that is put into effect *)
Example tables_ex : x_run false x_good = Some (true, 10%N, DropAll, [[gc 97]], [Some [gc 115]; None; Some [gc 115]]).
Proof. vm_compute. reflexivity. Qed.
Example tables_ex_hyp : exists s s', x_reachable s /\ tables_config x_names (fun _ => true) x_create name_eqb false x_good (Tc s false) = Some (s', true).
Proof.
  destruct x_start_ok as (s & E & R). pose proof tables_ex as H. unfold x_run, x_config in H. rewrite E in H. destruct (tables_config _ _ _ _ _ _ _) as [[s' ok]|] eqn:Et; [|done].
  exists s, s'. split; [done|]. rewrite Et. unfold x_view in H. simpl in H. by injection H as -> _.
Qed.
(** C72, refuted: a section that the dry run accepts can fail, and a section that failed can have changed something: here the
    parameters of a strategy are wrong, and the choice for another prefix has been set, while the capacity is the old one *)
Theorem C72_atomic_refuted : exists s t s', x_reachable s /\
  tables_config x_names (fun _ => true) x_create name_eqb true t (Tc s false) = Some (Tc s false, true) /\
  tables_config x_names (fun _ => true) x_create name_eqb false t (Tc s false) = Some (s', false) /\
  max_packets t 10 /\ Cs_Model.cs_limit (fw_cs (tc_fw s')) = 100%N /\ sc_at (fw_t s) [gc 97] = None /\ sc_at (fw_t (tc_fw s')) [gc 97] = Some [gc 115].
Proof.
  destruct x_start_ok as (s & E & R). exists s, x_bad.
  assert (H : x_run false x_bad = Some (false, 100%N, DropAll, [], [Some []; Some [gc 115]; None])) by (vm_compute; reflexivity).
  assert (H0 : option_map (fun s => sc_at (fw_t s) [gc 97]) x_start = Some None) by (vm_compute; reflexivity).
  assert (H1 : option_map snd (match x_start with Some s => x_config true x_bad s | None => None end) = Some true) by (vm_compute; reflexivity).
  unfold x_run, x_config in *. rewrite E in *. destruct (C72_dry x_names (fun _ => true) x_create name_eqb x_bad (Tc s false)) as (ok & Ed & _). rewrite Ed in *. simpl in H1. injection H1 as ->.
  destruct (tables_config x_names (fun _ => true) x_create name_eqb false x_bad (Tc s false)) as [[s' ok]|]; [|done]. exists s'. unfold x_view in H. simpl in H. injection H as -> Hl _ _ _ Ha _.
  split; [done|]. split; [done|]. split; [done|]. split; [|split; [done|]; split; [by injection H0|done]].
  apply (proj1 (C71_number (PTree "10" []) 10)). vm_compute. reflexivity.
Qed.
Print Assumptions C72_atomic_refuted.
