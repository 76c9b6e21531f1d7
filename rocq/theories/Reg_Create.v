(** Which names lead to which strategy. *)
From Coq Require Import String Ascii.
From Verif Require Import Lib Name_Model Name_Spec Name_Proof St_Model Reg_Model Reg_Spec Reg_Proof Reg_Param.

Global Instance kind_eq_dec : EqDecision kind.
Proof. solve_decision. Defined.
Definition nfd : registry kind := List.map (fun k => (strategy_name k, k)) [KAsf; KAccess; KRandom; KMulticast; KBestRoute; KSelfLearning].
Lemma nfd_ordered : ordered nfd.
Proof. repeat constructor. Qed.
Lemma nfd_in x : x ∈ nfd <-> x = (spec_name x.2, x.2).
Proof.
  split.
  - intros H. unfold nfd in H. apply elem_of_list_In, in_map_iff in H as (k & <- & _). by destruct k.
  - intros ->. apply elem_of_list_In, in_map_iff. exists x.2. split; [by destruct x.2|]. destruct x.2; cbn; tauto.
Qed.
Lemma spec_name_valid k : name_valid (spec_name k).
Proof. destruct k; repeat (constructor; [split; [done|split; [repeat (constructor; [done|]); constructor|done]]|]); constructor. Qed.
Lemma nfd_valid : Forall (fun y => name_valid y.1) nfd.
Proof. apply Forall_forall. intros x Hx%nfd_in. rewrite Hx. apply spec_name_valid. Qed.

Lemma register_all_spec l R R' : ordered R -> register_all l R = Some R' ->
  ordered R' /\ forall x, x ∈ R' <-> (exists k, k ∈ l /\ x = (strategy_name k, k)) \/ x ∈ R.
Proof.
  revert R. induction l as [|k l IH]; intros R HS; cbn [register_all].
  - intros [= <-]. split; [done|]. intros x. split; [by right|]. intros [(k & Hk & _)|]; [by apply elem_of_nil in Hk|done].
  - destruct (register_type _ _ _) as [R1|] eqn:E; [|done]. intros H. apply register_ordered in E as (HS1 & E & _); [|done].
    destruct (IH R1 HS1 H) as [HS' HR']. split; [done|]. intros x. rewrite HR', E. split.
    + intros [(k' & Hk' & ->)|[->|Hx]]; [left; exists k'; split; [apply elem_of_cons; by right|done]|left; exists k; split; [apply elem_of_list_here|done]|by right].
    + intros [(k' & Hk' & ->)|Hx]; [|by right; right]. apply elem_of_cons in Hk' as [->|Hk']; [by right; left|]. left. by exists k'.
Qed.
Lemma name_versioned k : versioned (spec_name k) (spec_prefix k) (54%N, [spec_version k]) [].
Proof. split; [done|]. split; [done|]. split; [split; [done|by left]|]. intros c Hc. by apply elem_of_nil in Hc. Qed.
Lemma register_all_ok l R : ordered R -> NoDup l -> (forall k, k ∈ l -> forall b, (strategy_name k, b) ∉ R) -> exists R', register_all l R = Some R'.
Proof.
  revert R. induction l as [|k l IH]; intros R HS Hn Hf; cbn [register_all]; [by eexists|].
  apply NoDup_cons in Hn as [Hk Hn].
  destruct (register_fresh (strategy_name k) k R) as (R1 & E); [done| |by apply Hf, elem_of_list_here|].
  { exists (spec_prefix k), (54%N, [spec_version k]). split; [by destruct k|]. split; [split; [done|by left]|done]. }
  rewrite E. apply register_ordered in E as (HS1 & E & _); [|done]. apply IH; [done|done|].
  intros k' Hk' b Hb. apply E in Hb as [Hb|Hb].
  - injection Hb as Hb _. destruct (decide (k = k')) as [->|]; [done|]. destruct k, k'; done.
  - by apply (Hf k' ltac:(apply elem_of_cons; by right) b).
Qed.

Section create.
  Variable lex_float : list N -> option flt.
  Lemma no_tilde_dec key : existsb (N.eqb TILDE) (chars key) = false -> no_tilde key.
  Proof.
    intros H Hi. apply elem_of_list_In in Hi. assert (existsb (N.eqb TILDE) (chars key) = true) as E; [|by rewrite E in H].
    apply existsb_exists. by exists TILDE.
  Qed.
  Lemma retx_construct_spec l m c : parse_params l = Some m -> retx_construct lex_float m = Some c <-> retx_says lex_float l c.
  Proof.
    intros H. unfold retx_construct, retx_says, retx_new.
    pose proof (fun x => get_signed_spec lex_int64 signed_text "retx-suppression-initial" 10%Z l m x lex_int64_spec ltac:(by apply no_tilde_dec) H) as H1.
    pose proof (fun x => get_signed_spec lex_int64 signed_text "retx-suppression-max" 250%Z l m x lex_int64_spec ltac:(by apply no_tilde_dec) H) as H2.
    pose proof (fun x => get_signed_spec lex_float (fun t x => lex_float t = Some x) "retx-suppression-multiplier" (Fin 1 1) l m x (fun t y => conj (fun e => e) (fun e => e)) ltac:(by apply no_tilde_dec) H) as H3.
    setoid_rewrite <- H1. setoid_rewrite <- H2. setoid_rewrite <- H3. clear H1 H2 H3.
    destruct (get_signed lex_int64 "retx-suppression-initial" _ _) as [i|]; [|split; [done|intros (? & _); done]].
    destruct (get_signed lex_int64 "retx-suppression-max" _ _) as [x|]; [|split; [done|intros (_ & ? & _); done]].
    destruct (get_signed lex_float _ _ _) as [f|]; [|split; [done|intros (_ & _ & ? & _); done]].
    destruct (Z.leb_spec i 0); [split; [done|]; intros ([= <-] & _ & _ & ? & _); lia|].
    destruct (Z.ltb_spec x i); [split; [done|]; intros ([= ->] & [= ->] & _ & ? & _); lia|].
    destruct (below_one f) eqn:Ef; [split; [done|]; intros (_ & _ & [= <-] & _ & ?); congruence|].
    split; [intros [= <-]; cbn; done|]. destruct c. cbn. intros ([= ->] & [= ->] & [= ->] & _). done.
  Qed.
  Lemma configure_spec k l s : configure lex_float k l = Some s <-> says lex_float k l s.
  Proof.
    assert (Hplain : match l with [] => Some SPlain | _ :: _ => None end = Some s <-> l = [] /\ s = SPlain).
    { destruct l; split; [by intros [= <-]|by intros [_ ->]|done|by intros [? _]]. }
    assert (Hwf : match parse_params l with Some _ => well_formed l | None => ~ well_formed l end).
    { destruct (parse_params l) as [m|] eqn:E; [apply parse_params_wf; by exists m|]. intros H. apply parse_params_wf in H as (m & H). by rewrite E in H. }
    assert (Hretx : match parse_params l with Some m => SRetx <$> retx_construct lex_float m | None => None end = Some s <-> well_formed l /\ exists c, s = SRetx c /\ retx_says lex_float l c).
    { destruct (parse_params l) as [m|] eqn:E; [|split; [done|by intros [? _]]]. setoid_rewrite <- (fun c => retx_construct_spec l m c E).
      destruct (retx_construct lex_float m) as [c|]; cbn; split; [intros [= <-]; split; [done|]; by exists c|by intros [_ (c' & -> & [= ->])]|done|by intros [_ (c' & _ & ?)]]. }
    destruct k; cbn [configure says]; try done.
    destruct (parse_params l) as [m|] eqn:E; [|split; [done|by intros [? _]]]. unfold asf_setup.
    setoid_rewrite <- (fun c => retx_construct_spec l m c E).
    setoid_rewrite <- (fun x => get_signed_spec lex_int64 signed_text "probing-interval" 60000%Z l m x lex_int64_spec ltac:(by apply no_tilde_dec) E).
    setoid_rewrite <- (fun x => get_unsigned_spec "max-timeouts" 3%Z l m x ltac:(by apply no_tilde_dec) E).
    setoid_rewrite <- (fun x => get_signed_spec lex_int64 signed_text "measurements-lifetime" 300000%Z l m x lex_int64_spec ltac:(by apply no_tilde_dec) E).
    destruct (retx_construct _ _) as [c|]; [|split; [done|intros [_ (? & ? & ? & ? & _ & ? & _)]; done]].
    destruct (get_signed lex_int64 "probing-interval" _ _) as [p|]; [|split; [done|intros [_ (? & ? & ? & ? & _ & _ & ? & _)]; done]].
    destruct (get_unsigned _ _ _) as [t|]; [|split; [done|intros [_ (? & ? & ? & ? & _ & _ & _ & ? & _)]; done]].
    destruct (get_signed lex_int64 "measurements-lifetime" _ _) as [u|]; [|split; [done|intros [_ (? & ? & ? & ? & _ & _ & _ & _ & ? & _)]; done]].
    destruct (Z.ltb_spec p 1000); [split; [done|intros [_ (? & ? & ? & ? & -> & _ & [= <-] & _ & _ & ?)]; lia]|].
    destruct (Z.leb_spec u p); [split; [done|intros [_ (? & ? & ? & ? & -> & _ & [= <-] & _ & [= <-] & ?)]; lia]|].
    split; [intros [= <-]; split; [done|]; by exists c, p, t, u|].
    intros [_ (? & ? & ? & ? & -> & [= <-] & [= <-] & [= <-] & [= <-] & _)]. done.
  Qed.

  (** what is registered, by the shape of the name asked for *)
  Lemma under k base : base `prefix_of` spec_name k -> base = [] \/ short base \/ base = spec_prefix k \/ base = spec_name k.
  Proof.
    unfold short, spec_name, spec_prefix. cbn [List.map app]. intros H.
    destruct base as [|a base]; [by left|right]. pose proof (prefix_cons_inv_1 _ _ _ _ H) as ->. apply prefix_cons_inv_2 in H.
    destruct base as [|b base]; [by left; left|]. pose proof (prefix_cons_inv_1 _ _ _ _ H) as ->. apply prefix_cons_inv_2 in H.
    destruct base as [|c base]; [by left; right; left|]. pose proof (prefix_cons_inv_1 _ _ _ _ H) as ->. apply prefix_cons_inv_2 in H.
    destruct base as [|d base]; [by left; right; right|]. pose proof (prefix_cons_inv_1 _ _ _ _ H) as ->. apply prefix_cons_inv_2 in H.
    destruct base as [|e base]; [by right; left|]. pose proof (prefix_cons_inv_1 _ _ _ _ H) as ->. apply prefix_cons_inv_2 in H.
    apply prefix_nil_inv in H as ->. by right; right.
  Qed.
  Lemma short_before k base v : short base -> is_ver v -> name_lt (spec_name k) (base ++ [v]).
  Proof.
    intros Hs [Hv _]. destruct Hs as [->|[->| ->]]; unfold spec_name, spec_prefix; cbn [List.map app]; repeat apply name_lt_there; apply name_lt_here; left; rewrite Hv; done.
  Qed.
  Lemma ver_le w v : ~ comp_lt (54%N, [w]) v -> is_ver v -> exists x, v = (54%N, [x]) /\ (x <= w)%N.
  Proof.
    intros H [Hv Hl]. destruct v as [t l]. cbn in *. subst t. destruct l as [|x [|y l]].
    - cbn in Hl. lia.
    - exists x. split; [done|]. apply N.nlt_ge. intros Hlt. apply H. right. split; [done|]. right. split; [done|]. by constructor.
    - exfalso. apply H. right. split; [done|]. left. cbn. lia.
  Qed.
  Lemma name_lt_app p l k : name_lt l k -> name_lt (p ++ l) (p ++ k).
  Proof. intros H. induction p; [done|]. by apply name_lt_there. Qed.
  Lemma name_lt_app_inv p l k : name_lt (p ++ l) (p ++ k) -> name_lt l k.
  Proof. rewrite <-!name_cmp_lt. by rewrite name_cmp_app. Qed.
  Lemma prefix_inj k k' : spec_prefix k = spec_prefix k' -> k = k'.
  Proof. destruct k, k'; done. Qed.
  Lemma prefix_under k k' : spec_prefix k `prefix_of` spec_name k' -> k = k'.
  Proof. intros H. apply name_prefixb_prefix in H. destruct k, k'; first [done|by vm_compute in H]. Qed.
  Lemma find_version n base v params x : versioned n base v params -> find_type nfd n = Some x ->
    exists w, base = spec_prefix x.2 /\ v = (54%N, [w]) /\ (w <= spec_version x.2)%N /\ x = (spec_name x.2, x.2).
  Proof.
    intros HV H. apply (find_versioned _ _ _ _ _ _ nfd_ordered HV) in H as (Hx & Hp & Hn & _). apply nfd_in in Hx. rewrite Hx in Hp, Hn. cbn [fst] in Hp, Hn.
    destruct HV as (_ & Hne & Hv & _). apply under in Hp as [->|[Hp|[->| ->]]]; [done|by destruct Hn; apply short_before| |].
    - destruct (ver_le (spec_version x.2) v) as (w & -> & Hw); [|done|by exists w].
      intros Hlt. apply Hn. unfold spec_name. apply name_lt_app. by apply name_lt_here.
    - destruct Hn. replace (spec_name x.2) with (spec_name x.2 ++ []) at 1 by apply app_nil_r. apply name_lt_app. constructor.
  Qed.
  Lemma find_at k w params : plain_params params -> (w <= spec_version k)%N -> find_type nfd (spec_prefix k ++ (54%N, [w]) :: params) = Some (spec_name k, k).
  Proof.
    intros Hp Hw. apply (find_versioned _ _ (spec_prefix k) (54%N, [w]) params); [apply nfd_ordered| |].
    - split; [done|]. split; [done|]. split; [split; [done|by left]|done].
    - split; [by apply nfd_in|]. cbn [fst]. split; [by exists [(54%N, [spec_version k])]|].
      split.
      + intros H. apply name_lt_app_inv in H. inversion H as [|c d n m Hc| ? ? ? Hc]; subst.
        * destruct Hc as [Hc|[_ [Hc|[_ Hc]]]]; cbn in *; [lia|lia|]. inversion Hc as [? ? ? ? Hlt|? ? ? Hlt]; subst; [lia|by inversion Hlt].
        * by inversion Hc.
      + intros y Hy%nfd_in Hyp _ Hlt. rewrite Hy in Hyp, Hlt. cbn in Hyp, Hlt. apply prefix_under in Hyp. rewrite <-Hyp in Hlt.
        apply name_cmp_lt in Hlt. by rewrite (cmp_refl name_cmp_ok) in Hlt.
  Qed.
  Lemma find_plain n x : name_valid n -> unversioned n -> find_type nfd n = Some x -> n = spec_prefix x.2 /\ x = (spec_name x.2, x.2) \/ short n /\ x = (spec_name KSelfLearning, KSelfLearning).
  Proof.
    intros Hval HU H. destruct (decide (n = [])) as [->|Hne]; [done|].
    apply (find_unversioned _ _ _ nfd_ordered nfd_valid Hval HU Hne) in H as (Hx & Hp & Hm). apply nfd_in in Hx. rewrite Hx in Hp. cbn [fst] in Hp.
    apply under in Hp as [->|[Hp|[->| ->]]]; [done| |by left|].
    - right. split; [done|]. destruct (decide (x.2 = KSelfLearning)) as [E|E]; [by rewrite E in Hx|]. exfalso.
      apply (Hm (spec_name KSelfLearning, KSelfLearning)); [by apply nfd_in| |].
      + destruct Hp as [->|[->| ->]]; eexists; reflexivity.
      + rewrite Hx. cbn [fst]. apply name_cmp_lt. destruct x.2; done.
    - exfalso. apply (HU (54%N, [spec_version x.2])); [|split; [done|by left]]. unfold spec_name, spec_prefix. cbn [List.map app tail]. repeat (apply elem_of_list_here || apply elem_of_list_further).
  Qed.
  Lemma prefix_unversioned k : unversioned (spec_prefix k).
  Proof.
    intros c Hc [E _]. unfold spec_prefix in Hc. cbn [List.map tail] in Hc. repeat (apply elem_of_cons in Hc as [->|Hc]; [done|]). by apply elem_of_nil in Hc.
  Qed.
  Lemma short_unversioned n : short n -> unversioned n.
  Proof.
    intros [->|[->| ->]] c Hc [E _]; cbn [List.map tail] in Hc; repeat (apply elem_of_cons in Hc as [->|Hc]; [done|]); by apply elem_of_nil in Hc.
  Qed.
  Lemma app_valid a b : name_valid (a ++ b) <-> name_valid a /\ name_valid b.
  Proof. apply Forall_app. Qed.
  Lemma find_prefix k : find_type nfd (spec_prefix k) = Some (spec_name k, k).
  Proof.
    apply (find_unversioned _ _ _ nfd_ordered nfd_valid); [exact (proj1 (proj1 (app_valid _ _) (spec_name_valid k)))|apply prefix_unversioned|done|].
    split; [by apply nfd_in|]. split; [by eexists|]. intros y Hy%nfd_in Hp Hlt. rewrite Hy in Hp, Hlt. cbn in Hp, Hlt. apply prefix_under in Hp. rewrite <-Hp in Hlt.
    apply name_cmp_lt in Hlt. by rewrite (cmp_refl name_cmp_ok) in Hlt.
  Qed.
  Lemma find_short n : short n -> find_type nfd n = Some (spec_name KSelfLearning, KSelfLearning).
  Proof. intros [->|[->| ->]]; vm_compute; reflexivity. Qed.

  Lemma last_name k : last_comp (strategy_name k) = Some (54%N, [spec_version k]).
  Proof. by destruct k. Qed.
  Lemma existsb_version n c : c ∈ n -> is_ver c -> existsb is_version n = true.
  Proof. intros H Hc. apply existsb_exists. exists c. split; [by apply elem_of_list_In|by apply is_version_spec]. Qed.
  Lemma instance_ver k n c : c ∈ n -> is_ver c -> make_instance n (strategy_name k) = Some n.
  Proof. intros H Hc. unfold make_instance. rewrite last_name. cbn. by rewrite (existsb_version n c). Qed.
  Lemma construct_at k w params : plain_params params ->
    construct lex_float k (spec_prefix k ++ (54%N, [w]) :: params) =
    match configure lex_float k params with Some c => if (w =? spec_version k)%N then Some (c, spec_prefix k ++ (54%N, [w]) :: params) else None | None => None end.
  Proof.
    intros Hp. unfold construct. rewrite (parse_versioned _ (spec_prefix k) (54%N, [w]) params).
    2:{ split; [done|]. split; [done|]. split; [split; [done|by left]|done]. }
    rewrite last_name. cbn [pn_params pn_version]. rewrite (instance_ver k _ (54%N, [w])); [|apply elem_of_app; right; apply elem_of_list_here|split; [done|by left]].
    replace (number (54%N, [w]).2) with w by (cbn; lia). replace (to_version (54%N, [spec_version k])) with (spec_version k) by (by destruct k).
    by destruct (configure _ _ _).
  Qed.
  Lemma creates_create n r : name_valid n -> creates lex_float n r -> create lex_float nfd n = r.
  Proof.
    intros Hval H. destruct H as [k params s Hp Hs|k s Hs|k params Hp Hs|k w params Hp Hw|n Hn|n H1 H2 H3]; unfold create.
    - unfold spec_name at 1 2. rewrite <-app_assoc. cbn [app]. rewrite find_at by done. rewrite construct_at by done. apply configure_spec in Hs as ->. rewrite N.eqb_refl.
      unfold spec_name. by rewrite <-app_assoc.
    - rewrite find_prefix. unfold construct. rewrite (parse_unversioned _ (prefix_unversioned k)), last_name. cbn [pn_params pn_version]. apply configure_spec in Hs as ->.
      unfold make_instance. rewrite last_name. cbn [is_version]. replace (existsb is_version (spec_prefix k)) with false by (by destruct k). by destruct k.
    - unfold spec_name. rewrite <-app_assoc. cbn [app]. rewrite find_at by done. rewrite construct_at by done.
      destruct (configure _ _ _) as [c|] eqn:E; [|done]. apply configure_spec in E. by destruct (Hs c).
    - rewrite find_at by (done || lia). rewrite construct_at by done. destruct (configure _ _ _); [|done].
      destruct (N.eqb_spec w (spec_version k)); [lia|done].
    - rewrite find_short by done. by destruct Hn as [->|[->| ->]].
    - destruct (find_type nfd n) as [x|] eqn:E; [exfalso|done]. destruct (name_shape n) as [HU|(base & v & params & HV)].
      + destruct (find_plain n x Hval HU E) as [[-> _]|[? _]]; [by apply (H2 x.2)|done].
      + pose proof (find_version _ _ _ _ _ HV E) as (w & -> & -> & Hw & _). destruct HV as (-> & _ & _ & Hp). specialize (H1 x.2 w params Hp eq_refl). lia.
  Qed.
  Lemma creates_total n : name_valid n -> exists r, creates lex_float n r.
  Proof.
    intros Hval. destruct (find_type nfd n) as [x|] eqn:E.
    - destruct (name_shape n) as [HU|(base & v & params & HV)].
      + destruct (find_plain n x Hval HU E) as [[-> _]|[? _]]; [|by eexists; apply cr_short].
        destruct (configure lex_float x.2 []) as [c|] eqn:Ec; [eexists; eapply cr_newest, configure_spec, Ec|].
        exfalso. by destruct x.2.
      + pose proof (find_version _ _ _ _ _ HV E) as (w & -> & -> & Hw & _). destruct HV as (-> & _ & _ & Hp).
        destruct (decide (w = spec_version x.2)) as [->|Hne].
        * replace (spec_prefix x.2 ++ (54%N, [spec_version x.2]) :: params) with (spec_name x.2 ++ params) by (unfold spec_name; by rewrite <-app_assoc).
          destruct (configure lex_float x.2 params) as [c|] eqn:Ec; [eexists; eapply cr_exact; [done|apply configure_spec, Ec]|].
          eexists. apply cr_params; [done|]. intros s Hs. apply configure_spec in Hs. by rewrite Ec in Hs.
        * eexists. apply cr_older; [done|lia].
    - eexists. apply cr_unknown.
      + intros k w params Hp ->. apply N.nle_gt. intros Hw. by rewrite find_at in E.
      + intros k ->. by rewrite find_prefix in E.
      + intros Hs. by rewrite find_short in E.
  Qed.
  Lemma create_creates n r : name_valid n -> create lex_float nfd n = r <-> creates lex_float n r.
  Proof.
    intros Hval. split; [|by apply creates_create]. intros <-. destruct (creates_total n Hval) as (r & Hr). by rewrite (creates_create n r).
  Qed.
End create.
