(** C67: strategy names.  With the registry that NFD has, the contracts of C23, C24 and C26 are met: these hold as they stand. *)
From Coq Require Import String Ascii.
From stdpp Require Import gmap.
From Verif Require Import Lib Name_Model Name_Spec Name_Proof Packet_Model Nt_Model Nt_Spec Tree_Model Tab_Model Tab_Spec Fw_Model Fw_Spec Fw_Case Fw_Main Fw_Out Fw_Ex Fib_Props St_Model Asf_Model Acc_Model Sl_Model
  Reg_Model Reg_Spec Reg_Proof Reg_Param Reg_Create FwScope_Props FwData_Props StFw_Props AsfFw_Props Acc_Props Sl_Props.

(** * Any registry *)
Section any.
  Context {A : Type}.
  (** [R] is what registering the strategies [l] leads to *)
  Inductive registered : registry A -> list (name * A) -> Prop :=
  | registered_none : registered [] []
  | registered_one R l n a R' : registered R l -> register_type n a R = Some R' -> registered R' ((n, a) :: l).
  Lemma registered_ordered R l : registered R l -> ordered R /\ forall x, x ∈ R <-> x ∈ l.
  Proof.
    induction 1 as [|R l n a R' H [IH1 IH2] E]; [split; [constructor|done]|].
    apply register_ordered in E as (H1 & H2 & _); [|done]. split; [done|]. intros x. by rewrite H2, IH2, elem_of_cons.
  Qed.
  (** each name once, sorted; the listing is what was registered *)
  Theorem C67_registered R l : registered R l -> list_registered R ≡ₚ List.map fst l /\ NoDup (List.map fst l) /\
    StronglySorted name_lt (list_registered R).
  Proof.
    intros H. assert (HP : R ≡ₚ l).
    { induction H as [|R l n a R' H IH E]; [done|]. unfold register_type in E. destruct (last_comp n) as [v|]; [|done]. destruct (_ && _); [|done].
      destruct (lower_bound_split n R []) as (B & F & EB & -> & _). rewrite EB, app_nil_r, rev_involutive in E.
      assert (R' = B ++ (n, a) :: F) as ->; [|by rewrite <-IH, Permutation_middle].
      destruct F as [|x F]; [by injection E as <-|]. destruct (name_eqb _ _); [done|]. by injection E as <-. }
    destruct (registered_ordered R l H) as [HS _]. assert (HS2 : StronglySorted name_lt (list_registered R)).
    { clear -HS. induction HS as [|x R0 HS IH HF]; cbn; constructor; [done|]. apply Forall_map. eapply Forall_impl; [exact HF|]. intros y Hy. by apply name_cmp_lt. }
    assert (HP2 : list_registered R ≡ₚ List.map fst l) by (by apply Permutation_map).
    split; [done|]. split; [|done]. rewrite <-HP2. clear -HS2. induction HS2 as [|x R0 HS IH HF]; constructor; [|done].
    rewrite Forall_forall in HF. intros Hx. specialize (HF x Hx). apply name_cmp_lt in HF. by rewrite (cmp_refl name_cmp_ok) in HF.
  Qed.
  (** registering fails if and only if the name is registered already, or is not a name with a version at its end *)
  Theorem C67_register R l n a : registered R l ->
    (exists R', register_type n a R = Some R') <-> (exists base v, n = base ++ [v] /\ is_ver v /\ base <> []) /\ n ∉ List.map fst l.
  Proof.
    intros H. destruct (registered_ordered R l H) as [HS HR]. split.
    - intros (R' & E). apply register_ordered in E as (_ & _ & Hf & Hq); [|done]. split; [done|]. intros Hn. apply elem_of_list_In, in_map_iff in Hn as ([m b] & <- & Hb).
      apply (Hf b), HR. by apply elem_of_list_In.
    - intros [Hq Hn]. apply register_fresh; [done|done|]. intros b Hb%HR. apply Hn, elem_of_list_In, in_map_iff. exists (n, b). split; [done|]. by apply elem_of_list_In.
  Qed.
  (** a name with a version leads to the strategy under the same base name that has the least version not less *)
  Theorem C67_versioned R l n base v params x : registered R l -> versioned n base v params ->
    find_type R n = Some x <-> first_under l base (base ++ [v]) x.
  Proof.
    intros H HV. destruct (registered_ordered R l H) as [HS HR]. rewrite (find_versioned R n base v params x HS HV). unfold first_under. by setoid_rewrite HR.
  Qed.
  (** a name without leads to the strategy under that name that comes last; the empty name to none *)
  Theorem C67_unversioned R l n x : registered R l -> (forall y, y ∈ l -> name_valid y.1) -> name_valid n -> unversioned n ->
    find_type R n = Some x <-> n <> [] /\ last_under l n x.
  Proof.
    intros H Hv Hn HU. destruct (registered_ordered R l H) as [HS HR]. destruct (decide (n = [])) as [->|Hne].
    - split; [done|]. by intros [? _].
    - rewrite (find_unversioned R n x HS); [|apply Forall_forall; intros y Hy; by apply Hv, HR|done|done|done]. unfold last_under. setoid_rewrite HR. tauto.
  Qed.
  (** every name is of one of the two kinds, not of both *)
  Theorem C67_kinds n : (unversioned n \/ exists base v params, versioned n base v params) /\ ~ (unversioned n /\ exists base v params, versioned n base v params).
  Proof.
    split; [apply name_shape|]. intros (HU & base & v & params & -> & Hne & Hv & _). apply (HU v); [|done].
    destruct base as [|b base]; [done|]. cbn. apply elem_of_app. right. apply elem_of_list_here.
  Qed.
End any.

(** * NFD's strategies *)
(** whatever the order in which they are registered, the registry is the same *)
Theorem C67_order l : l ≡ₚ all_kinds -> register_all l [] = Some nfd.
Proof.
  intros HP. destruct (register_all_ok l []) as (R & E); [constructor|rewrite HP; repeat constructor; set_solver|intros k _ b Hb; by apply elem_of_nil in Hb|].
  rewrite E. f_equal. apply register_all_spec in E as [HS HR]; [|constructor]. apply ordered_unique; [done|apply nfd_ordered|].
  intros x. rewrite HR, nfd_in. split.
  - intros [(k & _ & ->)|Hx]; [by destruct k|by apply elem_of_nil in Hx].
  - intros ->. left. exists x.2. split; [rewrite HP; destruct x.2; unfold all_kinds; set_solver|by destruct x.2].
Qed.

Section nfd.
  Variable lex_float : list N -> option flt.
  Notation create := (create lex_float nfd).
  (** what asking for a strategy leads to, for every name *)
  Theorem C67_create n r : name_valid n -> create n = r <-> creates lex_float n r.
  Proof. apply create_creates. Qed.
  (** the instance name leads to the same strategy, with the same parameters *)
  Theorem C67_again n k c inst : name_valid n -> ~ short n -> create n = CMade k c inst -> create inst = CMade k c inst.
  Proof.
    intros Hv Hs H. apply create_creates in H; [|done]. inversion H; subst; [by apply create_creates|..|done].
    replace (spec_name k) with (spec_name k ++ []) by apply app_nil_r. apply create_creates; [rewrite app_nil_r; apply spec_name_valid|].
    apply cr_exact; [|done]. intros x Hx. by apply elem_of_nil in Hx.
  Qed.
  Lemma name_cons k params : spec_name k ++ params = spec_prefix k ++ (54%N, [spec_version k]) :: params.
  Proof. unfold spec_name. by rewrite <-app_assoc. Qed.
  Lemma find_made n k c inst : name_valid n -> ~ short n -> create n = CMade k c inst -> find_type nfd inst = Some (spec_name k, k).
  Proof.
    intros Hv Hs H. apply create_creates in H; [|done]. inversion H; subst; [|..|done].
    - apply (find_at k (spec_version k) params); [done|reflexivity].
    - replace (spec_name k) with (spec_name k ++ []) at 1 by apply app_nil_r. rewrite name_cons. apply find_at; [|reflexivity]. intros x Hx. by apply elem_of_nil in Hx.
  Qed.
  (** two instances are of the same type exactly if they are the same strategy, whatever the parameters *)
  Theorem C67_same_type n m k1 k2 c1 c2 i1 i2 : name_valid n -> name_valid m -> ~ short n -> ~ short m ->
    create n = CMade k1 c1 i1 -> create m = CMade k2 c2 i2 -> same_type_in nfd i1 i2 = true <-> k1 = k2.
  Proof.
    intros Hn Hm Sn Sm E1 E2. unfold same_type_in. rewrite (find_made n k1 c1 i1), (find_made m k2 c2 i2) by done. cbn [fst].
    rewrite name_eqb_eq. split; [|by intros ->]. intros E. destruct k1, k2; done.
  Qed.
  (** canCreate says whether there is a type, not whether the constructor accepts the version and the parameters *)
  Theorem C67_can n : can_create nfd n = true <-> create n <> CUnknown.
  Proof.
    unfold can_create, Reg_Model.create. destruct (find_type nfd n) as [[m k]|]; [|done]. destruct (construct _ _ _) as [[c i]|]; done.
  Qed.

  (** ** What is wrong *)
  Lemma localhost_valid : name_valid [text_comp "localhost"].
  Proof. constructor; [|constructor]. split; [done|split; [repeat (constructor; [done|]); constructor|done]]. Qed.
  (** a name that is not the name of a strategy can lead to one: /localhost, /localhost/nfd and /localhost/nfd/strategy do *)
  Theorem C67_short_refuted : ~ (forall n k c inst, name_valid n -> create n = CMade k c inst -> spec_prefix k `prefix_of` n).
  Proof.
    intros H. assert (E : create [text_comp "localhost"] = CMade KSelfLearning SPlain [text_comp "localhost"; (54, [1])%N]) by (by vm_compute).
    apply H in E; [|apply localhost_valid]. apply name_prefixb_prefix in E. by vm_compute in E.
  Qed.
  (** the instance made then has a name that leads to no strategy ... *)
  Theorem C67_again_refuted : ~ (forall n k c inst, name_valid n -> create n = CMade k c inst -> create inst = CMade k c inst).
  Proof.
    intros H. assert (E : create [text_comp "localhost"] = CMade KSelfLearning SPlain [text_comp "localhost"; (54, [1])%N]) by (by vm_compute).
    apply H in E; [|apply localhost_valid]. by vm_compute in E.
  Qed.
  (** ... and does not count as the same type as the strategy it is *)
  Theorem C67_same_type_refuted : ~ (forall n m k c1 c2 i1 i2, name_valid n -> name_valid m ->
    create n = CMade k c1 i1 -> create m = CMade k c2 i2 -> same_type_in nfd i1 i2 = true).
  Proof.
    intros H. assert (E : create [text_comp "localhost"] = CMade KSelfLearning SPlain [text_comp "localhost"; (54, [1])%N]) by (by vm_compute).
    assert (E2 : create (spec_name KSelfLearning) = CMade KSelfLearning SPlain (spec_name KSelfLearning)) by (by vm_compute).
    pose proof (H _ _ _ _ _ _ _ localhost_valid (spec_name_valid _) E E2) as E3. by vm_compute in E3.
  Qed.
End nfd.

(** * NFD with its strategies *)
Section world.
  Variable lex_float : list N -> option flt.
  Variable o : oracles.
  Variable sort_nexthops : list nexthop -> list nexthop.
  Variable make_entry : name -> N -> Dnl_Model.fingerprint.
  Variable rand : nat -> nat.
  Variable face_order : list N -> list N.
  Hypothesis Hsort : sort_ok sort_nexthops.
  Hypothesis Horder : forall l, face_order l ≡ₚ l.
  Notation strategies := (program_of lex_float o nfd).
  Notation step := (fw_step sort_nexthops (create_for_table lex_float nfd) (same_type_in nfd) make_entry rand face_order strategies).
  Notation reachable := (fw_reachable sort_nexthops (create_for_table lex_float nfd) (same_type_in nfd) make_entry rand face_order strategies).
  Notation reachable_if := (fw_reachable_if sort_nexthops (create_for_table lex_float nfd) (same_type_in nfd) make_entry rand face_order strategies).

  (** the strategy object made for a name runs the program of that strategy with those parameters *)
  Theorem C67_program n k c inst : name_valid n -> create lex_float nfd n = CMade k c inst -> strategies inst = program o k c.
  Proof.
    intros Hv H. unfold program_of. apply create_creates in H as HC; [|done]. assert (Hn : short n \/ ~ short n).
    { unfold short. destruct (decide (n = List.map text_comp ["localhost"]%string)); [by left; left|]. destruct (decide (n = List.map text_comp ["localhost"; "nfd"]%string)); [by left; right; left|].
      destruct (decide (n = List.map text_comp ["localhost"; "nfd"; "strategy"]%string)); [by left; right; right|]. right. tauto. }
    destruct Hn as [Hn|Hn]; [|by rewrite (C67_again lex_float n k c inst Hv Hn H)].
    rewrite (proj2 (create_creates lex_float n _ Hv) (cr_short lex_float n Hn)) in H. injection H as <- <- <-.
    assert (Reg_Model.create lex_float nfd (n ++ [(54%N, [1%N])]) = CUnknown) as -> by (by destruct Hn as [->|[->| ->]]; vm_compute).
    rewrite app_length. cbn [length]. replace (length n + 1 - 1) with (length n) by lia. rewrite take_app.
    by rewrite (proj2 (create_creates lex_float n _ Hv) (cr_short lex_float n Hn)).
  Qed.
  Lemma nfd_world : world_ok sort_nexthops (same_type_in nfd) face_order.
  Proof. split; [done| |done]. intros s. unfold same_type_in. destruct (find_type nfd s); [by apply name_eqb_eq|done]. Qed.
  Lemma program_of_any (P : strategy -> Prop) : (forall k c, P (program o k c)) -> P (random_strategy (or_order o)) -> forall inst, P (strategies inst).
  Proof. intros H1 H2 inst. unfold program_of. destruct (create _ _ _); [apply H1|..]; (destruct (create _ _ _); [apply H1|apply H2|apply H2]). Qed.
  Lemma program_any (P : strategy -> Prop) : P (access_strategy (or_rto o) (or_fit o)) -> (forall c, P (asf_strategy (or_know o) (or_due o) (or_has_info o) (or_double o) (or_order o) c)) ->
    (forall c, P (best_route (or_order o) c)) -> (forall c, P (multicast c)) -> P (random_strategy (or_order o)) -> P (self_learning (or_get o) (or_put o) (or_order o)) -> forall inst, P (strategies inst).
  Proof. intros H1 H2 H3 H4 H5 H6. apply program_of_any; [|exact H5]. intros [] []; first [exact H1|apply H2|apply H3|apply H4|exact H5|exact H6]. Qed.
  Lemma nfd_scoped inst : scoped (strategies inst).
  Proof.
    revert inst. apply program_any; [apply C24_access|intros c; apply C24_asf|intros c; by destruct (C24_strategies (or_order o) c) as (? & ? & ?)..|by destruct (C24_strategies (or_order o) retx_default) as (? & ? & ?)|apply C24_self_learning].
  Qed.
  Lemma quiet_returns d f p : quiet p -> returns_only d f p.
  Proof. intros H s. eapply obeys_mono; [| |apply H]; [done|]. intros s' []; done. Qed.
  Lemma nfd_quiet inst : forall d f k, quiet (st_before (strategies inst) d f k).
  Proof.
    revert inst. apply (program_any (fun st => forall d f k, quiet (st_before st d f k))); [apply C27_access|intros c; apply C27_asf|intros c; apply (C27_strategies (or_order o) c)..|apply (C27_strategies (or_order o) retx_default)|intros d f k s; constructor].
  Qed.
  Lemma nfd_returns inst : forall p d f k, st_data (strategies inst) = Some p -> returns_only d f (p d f k).
  Proof.
    revert inst. apply (program_any (fun st => forall p d f k, st_data st = Some p -> returns_only d f (p d f k))); [done..|].
    intros p d f k [= <-] s. unfold sl_data. constructor. intros s1 _. destruct (pit_get k (fw_t s1)) as [e|]; [|constructor]. destruct (find_out _ _) as [r|]; [|constructor].
    assert (Ha : forall s, obeys (fun _ => True) (fun _ a => match a with Fw_Spec.AData d' f' => d' = d /\ f' = f | _ => True end) s (match or_get o (d_content d) with Some pa => sl_post SL_ANNOUNCE (fun _ => [pa; Z.of_N f; SL_LIFETIME]) (PDataToAll d f PDone) | None => PDataToAll d f PDone end)).
    { intros s2. destruct (or_get _ _); repeat constructor. }
    destruct (info_get _ _) as [[|[|[]|] []]|]; try apply Ha. destruct (need_prefix_ann _ _); repeat constructor.
  Qed.

  (** C23, C24 and C26 for NFD as it is, whatever strategies are chosen where *)
  Theorem C23_nfd s f i reason s' :
    reachable_if (fun ev => match ev with EvInterest _ i => localhost (i_name i) -> i_nexthop i = None | _ => True end) s ->
    nonlocal_face s f -> localhost (i_name i) -> step s (EvNack f i reason) = Some s' ->
    same_but_log s s' /\ added s s' [Rx_nack f i reason].
  Proof. apply C23_nack; [apply nfd_world|apply nfd_scoped]. Qed.
  Theorem C24_nfd s ev s' l g j : reachable s -> ev_ok s ev -> step s ev = Some s' -> added s s' l -> Tx_interest g j ∈ l ->
    (exists f i, ev = EvInterest f i /\ i_nexthop i = Some g /\ key_of j = key_of i) \/
    (localhost (i_name j) -> local_face s g) /\
    (localhop (i_name j) -> local_face s g \/ exists f i, local_face s f /\ asks s ev f (key_of j) i).
  Proof. apply (C24_interest _ _ _ _ _ _ _ nfd_world), nfd_scoped. Qed.
  Theorem C26_nfd s : reachable s -> exists P, accounted (fw_log s) P /\ forall k f r, in_record_of s k f r -> P f k.
  Proof. apply (C26_accounted _ _ _ _ _ _ _ nfd_world), nfd_quiet. Qed.
  Theorem C26_nfd_not_back s f d s' l g d' tok : reachable s -> ev_ok s (EvData f d) -> step s (EvData f d) = Some s' -> added s s' l -> Tx_data g d' tok ∈ l ->
    d' = d /\ (g = f -> adhoc_face s g).
  Proof. apply (C26_not_back _ _ _ _ _ _ _ nfd_world); [intros; apply quiet_returns, nfd_quiet|apply nfd_returns]. Qed.
End world.

(** ** Cases that meet the hypotheses *)
Definition ex_float (t : list N) : option flt := if text_eqb t (chars "1.5") then Some (Fin 3 (-1)) else None.
(** two versions of one strategy; 3 is asked for, 4 is there; without version, 7 *)
Definition ex_reg_name (v : N) : name := [text_comp "a"; text_comp "b"; (54%N, [v])].
Example C67_find_ex : exists R, registered R [(ex_reg_name 7, true); (ex_reg_name 4, false); (ex_reg_name 2, true)] /\
  find_type R (ex_reg_name 3 ++ [text_comp "x~y"]) = Some (ex_reg_name 4, false) /\ find_type R [text_comp "a"; text_comp "b"] = Some (ex_reg_name 7, true) /\
  find_type R (ex_reg_name 8) = None /\ versioned (ex_reg_name 3 ++ [text_comp "x~y"]) [text_comp "a"; text_comp "b"] (54%N, [3%N]) [text_comp "x~y"] /\ unversioned [text_comp "a"; text_comp "b"].
Proof.
  eexists. split; [eapply registered_one; [eapply registered_one; [eapply registered_one; [constructor|]|]|]; vm_compute; reflexivity|].
  split; [by vm_compute|]. split; [by vm_compute|]. split; [by vm_compute|]. split.
  - split; [done|]. split; [done|]. split; [split; [done|by left]|]. intros c Hc. apply elem_of_list_singleton in Hc as ->. by intros [? _].
  - intros c Hc. cbn in Hc. apply elem_of_list_singleton in Hc as ->. by intros [? _].
Qed.
(** parameters: the last setting counts *)
Example C67_create_ex : let n := spec_name KBestRoute ++ [text_comp "retx-suppression-initial~20"; text_comp "retx-suppression-multiplier~1.5"; text_comp "retx-suppression-initial~+40"] in
  create ex_float nfd n = CMade KBestRoute (SRetx (RetxCfg 40 250 (Fin 3 (-1)))) n /\
  create ex_float nfd (spec_prefix KAsf) = CMade KAsf (SAsf retx_default 60000 3 300000) (spec_name KAsf) /\
  create ex_float nfd (spec_name KAsf ++ [text_comp "probing-interval~300000"]) = CThrow /\
  create ex_float nfd (spec_prefix KAsf ++ [(54%N, [4%N])]) = CThrow /\ create ex_float nfd (spec_prefix KAsf ++ [(54%N, [6%N])]) = CUnknown.
Proof. split; [by vm_compute|]. split; [by vm_compute|]. split; [by vm_compute|]. split; by vm_compute. Qed.

(** NFD: best-route by default, multicast under /1.  An Interest under /1 goes to both nexthops, one under /2 to the cheaper one *)
Definition ex_oracles : oracles := Oracles (fun _ _ _ _ => None) (fun _ _ _ => false) (fun _ _ _ => false) (fun _ => (0, 0)%Z) (fun _ => 0%Z) (fun _ _ _ => []) (fun _ => None) (fun _ c => c) id.
Notation nfd_step := (fw_step isort (create_for_table ex_float nfd) (same_type_in nfd) ex_hash ex_rand ex_order (program_of ex_float ex_oracles nfd)).
Notation nfd_reachable := (fw_reachable isort (create_for_table ex_float nfd) (same_type_in nfd) ex_hash ex_rand ex_order (program_of ex_float ex_oracles nfd)).
Fixpoint nfd_run (evs : list event) (s : fw) : option fw :=
  match evs with
  | [] => Some s
  | ev :: evs' => if ev_okb s ev then match nfd_step s ev with Some s' => nfd_run evs' s' | None => None end else None
  end.
Definition nfd_after (evs : list event) : option fw :=
  match fw_new (create_for_table ex_float nfd) (spec_name KBestRoute) 100 with Some s => nfd_run evs s | None => None end.
Lemma nfd_run_reach evs s s' : nfd_reachable s -> nfd_run evs s = Some s' -> nfd_reachable s'.
Proof.
  revert s. induction evs as [|ev evs IH]; intros s R; cbn [nfd_run]; [by intros [= <-]|]. destruct (ev_okb s ev) eqn:E; [|done].
  destruct (nfd_step s ev) as [s1|] eqn:Es; [|done]. apply IH. eapply fw_reach_step; [exact R|by apply ev_okb_ok|exact Es].
Qed.
Lemma nfd_after_reach evs s : nfd_after evs = Some s -> nfd_reachable s.
Proof. unfold nfd_after. destruct (fw_new _ _ _) as [s0|] eqn:E; [|done]. apply nfd_run_reach. by eapply fw_reach_new. Qed.
Example C24_nfd_ex : match nfd_after (ex_faces ++ [EvFibAdd [] 257 20; EvFibAdd [] 258 10; EvStrategySet [gc 1] (spec_prefix KMulticast);
    EvInterest 256 (ex_interest [gc 1; gc 5] 11); EvInterest 256 (ex_interest [gc 2; gc 5] 12)]) with
  | Some s => bool_decide (sent_to (fw_log s) = [(1, 258); (1, 257); (1, 258)]%N) | None => false end = true.
Proof. vm_compute. reflexivity. Qed.

Print Assumptions C67_registered.
Print Assumptions C67_register.
Print Assumptions C67_versioned.
Print Assumptions C67_unversioned.
Print Assumptions C67_kinds.
Print Assumptions C67_order.
Print Assumptions C67_create.
Print Assumptions C67_again.
Print Assumptions C67_same_type.
Print Assumptions C67_can.
Print Assumptions C67_short_refuted.
Print Assumptions C67_again_refuted.
Print Assumptions C67_same_type_refuted.
Print Assumptions C67_program.
Print Assumptions C23_nfd.
Print Assumptions C24_nfd.
Print Assumptions C26_nfd.
Print Assumptions C26_nfd_not_back.
