(** C58, C59: subnets and predicates. *)
From Verif Require Import Lib Net_Model Net_Spec Net_Proof.

Section Props.
  Context (make_address : text -> option addr) (mk_wf : forall t a, make_address t = Some a -> addr_wf a).
  Local Notation lex := (lex_network make_address).
  Local Notation cidr := (is_cidr make_address).

  Definition subnet (a : addr) (len : nat) : network :=
    match a with
    | V4 b0 b1 b2 b3 => Network (v4_of (min_bytes [b0; b1; b2; b3] (mask_bytes 4 len))) (v4_of (max_bytes [b0; b1; b2; b3] (mask_bytes 4 len)))
    | V6 b _ => Network (V6 (min_bytes b (mask_bytes 16 len)) 0) (V6 (max_bytes b (mask_bytes 16 len)) 0)
    end.
  Lemma no_space s : existsb is_space s = false <-> forall c, c ∈ s -> is_space c = false.
  Proof using. clear mk_wf. 
    rewrite <-not_true_iff_false, existsb_exists. split.
    - intros H c Hc. destruct (is_space c) eqn:E; [|done]. destruct H. exists c. by rewrite <-elem_of_list_In.
    - intros H (c & Hc & E). apply elem_of_list_In, H in Hc. congruence.
  Qed.
  Lemma digits_all s : forallb is_digit s = true <-> forall c, c ∈ s -> is_digit c = true.
  Proof using. clear mk_wf. rewrite forallb_forall. split; intros H c Hc; apply H; by apply elem_of_list_In. Qed.
  Lemma lex_cidr s n : SLASH ∈ s -> lex s = Some n <-> exists a len, cidr s a len /\ n = subnet a len.
  Proof using.
    clear mk_wf. intros Hs. unfold lex_network. split.
    - destruct (existsb is_space s) eqn:Esp; [done|]. pose proof (proj1 (no_space s) Esp) as Esp'. unfold parse_network. destruct (find_slash s) as [[t d]|] eqn:Ef; [|by apply find_slash_none in Ef]. apply find_slash_some in Ef as [E Hn].
      destruct (make_address t) as [a|] eqn:Ea; [|done]. destruct (forallb is_digit d) eqn:Ed; [|done]. pose proof (proj1 (digits_all d) Ed) as Ed'. cbn [negb]. destruct (lex_size d) as [m|] eqn:El; [|done]. apply lex_size_some in El as [El1 El2].
      destruct a as [b0 b1 b2 b3|b sc].
      + destruct (N.ltb_spec 32 m) as [|Hm]; [done|]. intros [= <-]. exists (V4 b0 b1 b2 b3), (N.to_nat m). split; [|done]. exists t, d. rewrite N2Nat.id. repeat (split; [done|]). unfold width. simpl is_v4. cbv iota. lia.
      + destruct (N.ltb_spec 128 m) as [|Hm]; [done|]. intros [= <-]. exists (V6 b sc), (N.to_nat m). split; [|done]. exists t, d. rewrite N2Nat.id. repeat (split; [done|]). unfold width. simpl is_v4. cbv iota. lia.
    - intros (a & len & (t & d & E & Hn & Hsp & Ea & Hd & Hdig & Edec & Hw) & ->). rewrite (proj2 (no_space s) Hsp). unfold parse_network. rewrite (proj2 (find_slash_some s t d) (conj E Hn)), Ea.
      rewrite (proj2 (digits_all d) Hdig). cbn [negb]. assert (Hlen : (len <= 128)%nat) by (unfold width in Hw; destruct (is_v4 a); lia).
      assert (H64 : (128 < 2 ^ 64)%N) by done. rewrite (proj2 (lex_size_ok d (N.of_nat len) ltac:(lia)) (conj Hd Edec)). destruct a as [b0 b1 b2 b3|b sc]; unfold width in Hw; simpl in Hw.
      + destruct (N.ltb_spec 32 (N.of_nat len)); [lia|]. by rewrite Nat2N.id.
      + destruct (N.ltb_spec 128 (N.of_nat len)); [lia|]. by rewrite Nat2N.id.
  Qed.
  Lemma len4 {A} (l : list A) : length l = 4%nat -> exists a b c d, l = [a; b; c; d].
  Proof using. clear. destruct l as [|a [|b [|c [|d [|]]]]]; try done. intros _. by exists a, b, c, d. Qed.
  Lemma subnet_ok a len b : addr_wf a -> addr_wf b -> (len <= width a)%nat ->
    does_contain (subnet a len) b = true <-> same_subnet len a b /\ (scope b = 0%N \/ ~ is_last len b).
  Proof using.
    clear mk_wf make_address. intros Ha Hb Hw. unfold does_contain, addr_leb, same_subnet, is_last. rewrite andb_true_iff, !negb_true_iff. destruct a as [a0 a1 a2 a3|la sa], b as [b0 b1 b2 b3|lb sb]; simpl addr_wf in *; unfold width in Hw; simpl is_v4 in *; cbv iota in Hw.
    - destruct (mask_all 4 len ltac:(by left) ltac:(lia)) as (M1 & M2 & M3). destruct (min_bits _ _ Ha M1 ltac:(done)) as (I1 & I2 & I3). destruct (max_bits _ _ Ha M1 ltac:(done)) as (X1 & X2 & X3). rewrite M3 in I3, X3.
      rewrite zip_and in I3 by (rewrite bits_len; simpl; lia). rewrite zip_or in X3 by (rewrite bits_len; simpl; lia). simpl subnet. cbn [n_min n_max].
      destruct (len4 _ I2) as (c0 & c1 & c2 & c3 & Ec). destruct (len4 _ X2) as (d0 & d1 & d2 & d3 & Ed). rewrite Ec in *. rewrite Ed in *. cbn [v4_of addr_ltb addr_bits scope].
      rewrite !N.ltb_ge, <-!N.compare_ge_iff, !v4_cmp by done. rewrite !text_cmp_bits by done. rewrite I3, X3.
      rewrite (lex_range (bits [a0; a1; a2; a3]) (bits [b0; b1; b2; b3])) by (rewrite !bits_len; simpl; lia). split; [intros H|intros [[_ H] _]]; [|done]. split; [by split|by left].
    - split; [|by intros [[? _] _]]. destruct (mask_all 4 len ltac:(by left) ltac:(lia)) as (M1 & M2 & M3). destruct (max_bits _ _ Ha M1 ltac:(done)) as (X1 & X2 & X3). simpl subnet. cbn [n_min n_max].
      destruct (len4 _ X2) as (d0 & d1 & d2 & d3 & ->). cbn [v4_of addr_ltb]. by intros [_ ?].
    - split; [|by intros [[? _] _]]. simpl. by intros [? _].
    - destruct Ha as [Ha La], Hb as [Hb Lb]. destruct (mask_all 16 len ltac:(by right) ltac:(lia)) as (M1 & M2 & M3). destruct (min_bits _ _ Ha M1 ltac:(congruence)) as (I1 & I2 & I3). destruct (max_bits _ _ Ha M1 ltac:(congruence)) as (X1 & X2 & X3). rewrite M3 in I3, X3.
      rewrite zip_and in I3 by (rewrite bits_len; lia). rewrite zip_or in X3 by (rewrite bits_len; lia). simpl subnet. cbn [n_min n_max addr_ltb addr_bits scope]. rewrite !text_cmp_bits by (try done; congruence). rewrite I3, X3.
      pose proof (lex_range (bits la) (bits lb) len (8 * 16 - len) ltac:(rewrite bits_len; lia) ltac:(rewrite !bits_len; lia)) as HR.
      pose proof (lex_last (bits la) (bits lb) len (8 * 16 - len) ltac:(rewrite bits_len; lia) ltac:(rewrite !bits_len; lia)) as HL. split.
      + intros [H1 H2]. assert (Ht : take len (bits lb) = take len (bits la)).
        { apply HR. split; [by destruct (lexb (bits lb) _)|by destruct (lexb _ (bits lb))]. }
        split; [done|]. destruct (lexb (take len (bits la) ++ _) (bits lb)) eqn:E; [|done|].
        * left. apply N.ltb_ge in H2. lia.
        * right. intros Hl%(HL Ht). congruence.
      + intros [[_ Ht] Hs]. destruct (proj2 HR (eq_sym Ht)) as [R1 R2]. split.
        * destruct (lexb (bits lb) _); [|done|done]. apply N.ltb_ge. lia.
        * destruct (lexb (take len (bits la) ++ _) (bits lb)) eqn:E; [|done|done]. destruct Hs as [->|Hs]; [done|]. destruct Hs. by apply HL.
  Qed.

  (** A text with a slash is a valid subnet exactly when it is an address, a slash and a number, written
      in digits only, that is at most the number of bits of the address. *)
  Theorem C58_valid s : is_valid_cidr make_address s = true <-> exists a len, cidr s a len.
  Proof using.
    clear mk_wf. unfold is_valid_cidr. destruct (find_slash s) as [[t d]|] eqn:Ef.
    - assert (Hs : SLASH ∈ s) by (apply find_slash_some in Ef as [-> _]; apply elem_of_app; right; left). destruct (lex s) as [n|] eqn:E.
      + split; [|done]. intros _. apply lex_cidr in E as (a & len & H & _); [|done]. by exists a, len.
      + split; [done|]. intros (a & len & H). assert (K : lex s = Some (subnet a len)) by (apply lex_cidr; [done|by exists a, len]). congruence.
    - apply find_slash_none in Ef. split; [done|]. intros (a & len & t & d & -> & _). destruct Ef. apply elem_of_app. right. left.
  Qed.
  (** The subnet that such a text names contains exactly the addresses of the same family that agree
      with the given one on the first bits, except that it misses its last address if that comes with a
      scope (an interface number). *)
  Theorem C58_contains s a len b :
    cidr s a len -> addr_wf b ->
    exists n, lex s = Some n /\ (does_contain n b = true <-> same_subnet len a b /\ (scope b = 0%N \/ ~ is_last len b)).
  Proof using mk_wf.
    intros Hc Hb. assert (Hs : SLASH ∈ s) by (destruct Hc as (t & d & -> & _); apply elem_of_app; right; left). exists (subnet a len). split; [apply lex_cidr; [done|by exists a, len]|].
    destruct Hc as (t & d & _ & _ & _ & Ea & _ & _ & _ & Hw). by apply subnet_ok; [by eapply mk_wf|..].
  Qed.
  (** Any other text that is accepted is a single address, which contains itself only. *)
  Theorem C58_single s n b :
    SLASH ∉ s -> lex s = Some n -> exists a, make_address s = Some a /\ (addr_wf b -> does_contain n b = true <-> b = a).
  Proof using mk_wf.
    intros Hs. unfold lex_network. destruct (existsb is_space s); [done|]. unfold parse_network. rewrite (proj2 (find_slash_none s) Hs). destruct (make_address s) as [a|] eqn:E; [|done]. intros [= <-]. exists a. split; [done|].
    intros Hb. apply mk_wf in E as Ha. clear E. unfold does_contain, addr_leb. simpl. rewrite andb_true_iff, !negb_true_iff. split.
    - intros [H1 H2]. destruct a as [a0 a1 a2 a3|la sa], b as [b0 b1 b2 b3|lb sb]; simpl in *; try done.
      + apply N.ltb_ge in H1, H2. assert (E : text_cmp [b0; b1; b2; b3] [a0; a1; a2; a3] = Eq) by (rewrite <-v4_cmp by done; apply N.compare_eq_iff; lia). apply text_cmp_eq in E. by injection E as -> -> -> ->.
      + rewrite (text_cmp_anti lb la) in H2. destruct (text_cmp lb la) eqn:E; [|done|done]. apply text_cmp_eq in E as ->. simpl in H2. apply N.ltb_ge in H1, H2. f_equal. lia.
    - intros ->. destruct a as [a0 a1 a2 a3|la sa]; simpl; [by rewrite N.ltb_irrefl|]. rewrite (proj2 (text_cmp_eq la la) eq_refl), N.ltb_irrefl. done.
  Qed.
End Props.
Print Assumptions C58_valid.
Print Assumptions C58_contains.
Print Assumptions C58_single.

(** The whole ranges contain every address of their family; of IPv6, all but the one with only ones and a scope. *)
Theorem C58_whole b : addr_wf b ->
  (does_contain max_range_v4 b = true <-> is_v4 b = true) /\
  (does_contain max_range_v6 b = true <-> is_v4 b = false /\ (scope b = 0%N \/ ~ is_last 0 b)).
Proof.
  intros Hb. split.
  - pose proof (subnet_ok (V4 0 0 0 0) 0 b ltac:(repeat constructor) Hb ltac:(simpl; lia)) as H. change (subnet (V4 0 0 0 0) 0) with max_range_v4 in H. rewrite H. unfold same_subnet. rewrite !take_0. destruct b as [b0 b1 b2 b3|l s]; simpl.
    + split; [done|]. intros _. split; [done|by left].
    + split; [by intros [[? _] _]|done].
  - pose proof (subnet_ok (V6 (repeat 0%N 16) 0) 0 b ltac:(split; [apply (proj2 (Forall_forall _ _)); intros x ->%elem_of_list_In%repeat_spec; done|done]) Hb ltac:(simpl; lia)) as H.
    change (subnet (V6 (repeat 0%N 16) 0) 0) with max_range_v6 in H. rewrite H. unfold same_subnet. rewrite !take_0. simpl. destruct b as [b0 b1 b2 b3|l s]; simpl.
    + split; [by intros [[? _] _]|by intros [? _]].
    + split; [by intros [_ ?]|intros [_ ?]; done].
Qed.
Print Assumptions C58_whole.

(** An address that agrees on all bits of the prefix can be missed: fe80::1 on interface 2 is not in fe80::1/128. *)
Definition fe80 (last : N) : list N := ([254; 128] ++ repeat 0 13 ++ [last])%N.
Theorem C58_scope_refuted : ~ forall mk s a len b n, is_cidr mk s a len -> addr_wf a -> addr_wf b -> lex_network mk s = Some n -> same_subnet len a b -> does_contain n b = true.
Proof.
  intros H. specialize (H (fun _ => Some (V6 (fe80 1) 0)) [102; 47; 49; 50; 56]%N (V6 (fe80 1) 0) 128%nat (V6 (fe80 1) 2)).
  assert (Hwf : forall s, addr_wf (V6 (fe80 1) s)) by (intros s; split; [apply Forall_forall; intros x Hx; unfold fe80 in Hx; repeat (apply elem_of_cons in Hx as [->|Hx]; [done|]); by apply elem_of_nil in Hx|done]).
  specialize (H (subnet (V6 (fe80 1) 0) 128)). assert (T : is_cidr (fun _ => Some (V6 (fe80 1) 0)) [102; 47; 49; 50; 56]%N (V6 (fe80 1) 0) 128); [clear H Hwf|assert (K := H T (Hwf 0%N) (Hwf 2%N) ltac:(vm_compute; reflexivity) ltac:(vm_compute; split; reflexivity)); revert K; vm_compute; discriminate]. exists [102]%N, [49; 50; 56]%N. split; [done|]. split; [set_solver|]. split; [|split; [done|split; [done|split; [|by vm_compute]]]].
  - intros c Hc. rewrite !elem_of_cons in Hc. destruct Hc as [->|[->|[->|[->|[->|Hc%elem_of_nil]]]]]; done.
  - intros c Hc. rewrite !elem_of_cons in Hc. destruct Hc as [->|[->|[->|Hc%elem_of_nil]]]; done.
Qed.
Print Assumptions C58_scope_refuted.

(** * C59 *)
Section Pred.
  Context (make_address : text -> option addr) (mk_wf : forall t a, make_address t = Some a -> addr_wf a) (fnmatch : text -> text -> bool) (is_ether : text -> bool).
  Local Notation parse_list := (parse_list make_address is_ether).
  Local Notation ok := (rule_ok make_address is_ether).

  Lemma set_insert_in x y l : x ∈ set_insert y l <-> x = y \/ x ∈ l.
  Proof using.
    clear. induction l as [|z l IH]; simpl; [by rewrite elem_of_list_singleton, elem_of_nil; tauto|]. destruct (text_cmp y z) eqn:E.
    - apply text_cmp_eq in E as ->. rewrite elem_of_cons. tauto.
    - by rewrite elem_of_cons.
    - rewrite !elem_of_cons, IH. tauto.
  Qed.
  Lemma rule_check iface k v : k <> Star -> rule_supported iface k = true /\ rule_valid make_address is_ether k v = true <-> ok iface (k, v).
  Proof using.
    clear mk_wf fnmatch. intros Hk. destruct k; simpl; unfold rule_ok; simpl; try done.
    - destruct v; (split; [by intros [? ?]|]); by intros [? ?].
    - rewrite C58_valid. tauto.
    - by split; [intros [? _]|].
  Qed.
  Lemma parse_list_ok iface items set0 :
    exists good rest, items = good ++ rest /\ Forall (ok iface) good /\
      (forall t, t ∈ fst (parse_list iface items set0) <-> t ∈ set0 \/ t ∈ map rule_text good) /\
      (if snd (parse_list iface items set0) then rest = [] else exists r l, rest = r :: l /\ ~ ok iface r).
  Proof using.
    clear mk_wf fnmatch. revert set0. induction items as [|[k v] items IH]; intros set0; simpl.
    { exists [], []. split; [done|]. split; [constructor|]. split; [|done]. intros t. rewrite elem_of_nil. tauto. }
    assert (Hgo : forall x, x = rule_text (k, v) -> ok iface (k, v) -> exists good rest, (k, v) :: items = good ++ rest /\ Forall (ok iface) good /\
      (forall t, t ∈ fst (parse_list iface items (set_insert x set0)) <-> t ∈ set0 \/ t ∈ map rule_text good) /\
      (if snd (parse_list iface items (set_insert x set0)) then rest = [] else exists r l, rest = r :: l /\ ~ ok iface r)).
    { intros x -> Hok. destruct (IH (set_insert (rule_text (k, v)) set0)) as (good & rest & E & G & Hin & Hr). exists ((k, v) :: good), rest. split; [by rewrite E|]. split; [by constructor|]. split; [|done].
      intros t. rewrite Hin, set_insert_in. simpl. rewrite elem_of_cons. tauto. }
    assert (Hstop : ~ ok iface (k, v) -> exists good rest, (k, v) :: items = good ++ rest /\ Forall (ok iface) good /\
      (forall t, t ∈ fst (set0, false) <-> t ∈ set0 \/ t ∈ map rule_text good) /\ (if snd (set0, false) then rest = [] else exists r l, rest = r :: l /\ ~ ok iface r)).
    { intros Hno. exists [], ((k, v) :: items). split; [done|]. split; [constructor|]. split; [intros t; simpl; rewrite elem_of_nil; tauto|]. by exists (k, v), items. }
    destruct k; [by apply Hgo|..]; (match goal with |- context [rule_supported iface ?k] => pose proof (rule_check iface k v ltac:(done)) as Hc; destruct (rule_supported iface k); cbn [negb]; [destruct (rule_valid make_address is_ether k v); cbn [negb]|] end);
      try (apply Hgo; [done|by apply Hc]); apply Hstop; rewrite <-Hc; by intros [? ?].
  Qed.
  (** Reading a list replaces it.  It succeeds exactly when every rule is a wildcard or a supported,
      well-formed rule, and then the list holds exactly those rules; otherwise an exception is thrown at the
      first bad rule, and the rules before it stay. *)
  Theorem C59_parse iface items p :
    exists good rest, items = good ++ rest /\ Forall (ok iface) good /\
      (snd (parse_whitelist make_address is_ether iface items p) = true <-> rest = []) /\
      (forall r l, rest = r :: l -> ~ ok iface r) /\
      (forall t, t ∈ whitelist (fst (parse_whitelist make_address is_ether iface items p)) <-> t ∈ map rule_text good) /\
      blacklist (fst (parse_whitelist make_address is_ether iface items p)) = blacklist p /\
      (snd (parse_blacklist make_address is_ether iface items p) = true <-> rest = []) /\
      (forall t, t ∈ blacklist (fst (parse_blacklist make_address is_ether iface items p)) <-> t ∈ map rule_text good) /\
      whitelist (fst (parse_blacklist make_address is_ether iface items p)) = whitelist p.
  Proof using.
    clear mk_wf fnmatch. destruct (parse_list_ok iface items []) as (good & rest & E & G & Hin & Hr). exists good, rest. split; [done|]. split; [done|]. unfold parse_whitelist, parse_blacklist. destruct (parse_list iface items []) as [s b]. simpl in *.
    assert (Hb : b = true <-> rest = []) by (destruct b; [done|]; destruct Hr as (r & l & -> & _); done). assert (Hs : forall t, t ∈ s <-> t ∈ map rule_text good) by (intros t; rewrite Hin, elem_of_nil; tauto).
    split; [done|]. split; [|done]. intros r l E2. destruct b; [congruence|]. destruct Hr as (r' & l' & E3 & Hno). congruence.
  Qed.

  Lemma in_subnet_ok t x : addr_wf x -> SLASH ∈ t -> forall n, lex_network make_address t = Some n -> does_contain n x = true <-> in_subnet make_address t x.
  Proof using mk_wf.
    clear fnmatch is_ether. intros Hx Hs n E. apply lex_cidr in E as (a & len & Hc & ->); [|done]. assert (Hok : forall a len, is_cidr make_address t a len -> does_contain (subnet a len) x = true <-> same_subnet len a x /\ (scope x = 0%N \/ ~ is_last len x)).
    { intros a' len' (t' & d & _ & _ & _ & Ea & _ & _ & _ & Hw). apply subnet_ok; [by eapply mk_wf|done|done]. }
    split; [intros H; exists a, len; split; [done|]; by apply Hok|]. intros (a' & len' & Hc' & H). apply (Hok a' len' Hc') in H.
    assert (K : Some (subnet a len) = Some (subnet a' len')). { transitivity (lex_network make_address t); [symmetry|]; apply lex_cidr; try done; [by exists a, len|by exists a', len']. } by injection K as ->.
  Qed.
  Lemma cidr_slash t a len : is_cidr make_address t a len -> SLASH ∈ t.
  Proof using. clear. intros (t' & d & -> & _). apply elem_of_app. right. left. Qed.
  Lemma addr_match_ok x t : addr_wf x -> (SLASH ∈ t -> exists a len, is_cidr make_address t a len) -> exists b, addr_match make_address x t = Some b /\ (b = true <-> addr_matches make_address x t).
  Proof using mk_wf.
    clear fnmatch is_ether. intros Hx Hc. unfold addr_match, addr_matches. destruct (find_slash t) as [[t1 d]|] eqn:Ef.
    - assert (Hs : SLASH ∈ t) by (apply find_slash_some in Ef as [-> _]; apply elem_of_app; right; left). destruct (Hc Hs) as (a & len & H). assert (E : lex_network make_address t = Some (subnet a len)) by (apply lex_cidr; [done|by exists a, len]).
      rewrite E. eexists. split; [done|]. rewrite orb_true_iff, text_eqb_eq, (in_subnet_ok t x Hx Hs _ E). tauto.
    - apply find_slash_none in Ef. eexists. split; [done|]. rewrite text_eqb_eq. split; [by left|]. intros [?|(a & len & H & _)]; [done|]. by apply cidr_slash in H.
  Qed.
  Lemma netif_match_ok i t : Forall addr_wf (nif_addrs i) -> (SLASH ∈ t -> exists a len, is_cidr make_address t a len) ->
    exists b, netif_match make_address fnmatch i t = Some b /\ (b = true <-> netif_matches make_address fnmatch i t).
  Proof using mk_wf.
    clear is_ether. intros Hi Hc. unfold netif_match, netif_matches. destruct (find_slash t) as [[t1 d]|] eqn:Ef.
    - assert (Hs : SLASH ∈ t) by (apply find_slash_some in Ef as [-> _]; apply elem_of_app; right; left). destruct (Hc Hs) as (a & len & H). assert (E : lex_network make_address t = Some (subnet a len)) by (apply lex_cidr; [done|by exists a, len]).
      rewrite E. eexists. split; [done|]. rewrite !orb_true_iff, !text_eqb_eq, existsb_exists. rewrite Forall_forall in Hi. split.
      + intros [[[(x & Hx & Hd)|?]|?]|?]; [|by left|by right; left|by right; right; left]. right. right. right. apply elem_of_list_In in Hx. exists x. split; [done|]. apply (in_subnet_ok t x (Hi x Hx) Hs _ E). done.
      + intros [?|[?|[?|(x & Hx & Hd)]]]; [tauto..|by right| ]. left. left. left. exists x. rewrite <-elem_of_list_In. split; [done|]. by apply (in_subnet_ok t x (Hi x Hx) Hs _ E).
    - apply find_slash_none in Ef. eexists. split; [done|]. rewrite !orb_true_iff, !text_eqb_eq. split; [intros [[?|?]|?]; auto|]. intros [?|[?|[?|(x & _ & a & len & H & _)]]]; [tauto..|by right|]. by apply cidr_slash in H.
  Qed.
  Lemma any_of_ok (f : text -> option bool) (P : text -> Prop) l : (forall t, t ∈ l -> exists b, f t = Some b /\ (b = true <-> P t)) ->
    exists b, any_of f l = Some b /\ (b = true <-> exists t, t ∈ l /\ P t).
  Proof using.
    clear. induction l as [|t l IH]; intros H; simpl; [exists false; split; [done|]; split; [done|]; by intros (t & []%elem_of_nil & _)|]. destruct (H t ltac:(left)) as (b & -> & Hb). destruct b.
    - exists true. split; [done|]. split; [|done]. intros _. exists t. split; [left|by apply Hb].
    - destruct IH as (b & E & Hl); [intros t' Ht; apply H; by right|]. exists b. split; [done|]. rewrite Hl. split; [intros (t' & Ht & Hp); exists t'; split; [by right|done]|].
      intros (t' & [->|Ht]%elem_of_cons & Hp); [by apply Hb in Hp|by exists t'].
  Qed.
  Lemma accepts_ok (f : text -> option bool) (P : text -> Prop) p : (forall t, t ∈ whitelist p \/ t ∈ blacklist p -> exists b, f t = Some b /\ (b = true <-> P t)) ->
    exists b, accepts f p = Some b /\ (b = true <-> (exists t, t ∈ whitelist p /\ P t) /\ ~ exists t, t ∈ blacklist p /\ P t).
  Proof using.
    clear. intros H. unfold accepts. destruct (any_of_ok f P (whitelist p)) as (w & -> & Hw); [auto|]. destruct (any_of_ok f P (blacklist p)) as (b & -> & Hb); [auto|]. destruct w.
    - eexists. split; [done|]. rewrite negb_true_iff, <-not_true_iff_false, Hb, <-Hw. tauto.
    - exists false. split; [done|]. rewrite <-Hw. by split; [|intros [? _]].
  Qed.
  (** An address is accepted exactly when a rule of the whitelist matches it and no rule of the blacklist does,
      for lists that were read. *)
  Theorem C59_address wl bl p x :
    Forall (ok false) wl -> Forall (ok false) bl ->
    (forall t, t ∈ whitelist p <-> t ∈ map rule_text wl) -> (forall t, t ∈ blacklist p <-> t ∈ map rule_text bl) -> addr_wf x ->
    exists b, addr_accepts make_address p x = Some b /\
      (b = true <-> (exists r, r ∈ wl /\ addr_matches make_address x (rule_text r)) /\ ~ exists r, r ∈ bl /\ addr_matches make_address x (rule_text r)).
  Proof using mk_wf.
    clear fnmatch. intros Hwl Hbl Ew Eb Hx. destruct (accepts_ok (addr_match make_address x) (addr_matches make_address x) p) as (b & E & H).
    - intros t Ht. apply addr_match_ok; [done|]. intros Hs. assert (Hr : exists r, ok false r /\ t = rule_text r).
      { rewrite Forall_forall in Hwl, Hbl. destruct Ht as [(r & -> & Hr)%Ew%elem_of_list_fmap|(r & -> & Hr)%Eb%elem_of_list_fmap]; exists r; auto. }
      destruct Hr as ([k v] & Hok & ->). unfold rule_ok in Hok. destruct k; simpl in *; try done; try (by destruct Hok). unfold STAR, SLASH in Hs. by apply elem_of_list_singleton in Hs.
    - exists b. split; [done|]. rewrite H. assert (K : forall (l : list text) (L : list rule), (forall t, t ∈ l <-> t ∈ map rule_text L) -> (exists t, t ∈ l /\ addr_matches make_address x t) <-> exists r, r ∈ L /\ addr_matches make_address x (rule_text r)).
      { intros l L EL. split; [intros (t & (r & -> & Hr)%EL%elem_of_list_fmap & Hm); by exists r|]. intros (r & Hr & Hm). exists (rule_text r). split; [|done]. apply EL, elem_of_list_fmap. by exists r. }
      by rewrite (K _ _ Ew), (K _ _ Eb).
  Qed.
  (** An interface is accepted exactly when a rule of the whitelist matches it and no rule of the blacklist
      does, for lists that were read, if no interface name in them has a slash. *)
  Theorem C59_interface_partial wl bl p i :
    Forall (ok true) wl -> Forall (ok true) bl ->
    (forall v, (Ifname, v) ∈ wl ++ bl -> SLASH ∉ v) -> (forall v, is_ether v = true -> SLASH ∉ v) ->
    (forall t, t ∈ whitelist p <-> t ∈ map rule_text wl) -> (forall t, t ∈ blacklist p <-> t ∈ map rule_text bl) -> Forall addr_wf (nif_addrs i) ->
    exists b, netif_accepts make_address fnmatch p i = Some b /\
      (b = true <-> (exists r, r ∈ wl /\ netif_matches make_address fnmatch i (rule_text r)) /\ ~ exists r, r ∈ bl /\ netif_matches make_address fnmatch i (rule_text r)).
  Proof using mk_wf.
    intros Hwl Hbl Hif Het Ew Eb Hx. destruct (accepts_ok (netif_match make_address fnmatch i) (netif_matches make_address fnmatch i) p) as (b & E & H).
    - intros t Ht. apply netif_match_ok; [done|]. intros Hs. assert (Hr : exists r, r ∈ wl ++ bl /\ ok true r /\ t = rule_text r).
      { rewrite Forall_forall in Hwl, Hbl. destruct Ht as [(r & -> & Hr)%Ew%elem_of_list_fmap|(r & -> & Hr)%Eb%elem_of_list_fmap]; exists r; rewrite elem_of_app; auto. }
      destruct Hr as ([k v] & Hin & Hok & ->). unfold rule_ok in Hok. destruct k; simpl in *; try done.
      + unfold STAR, SLASH in Hs. by apply elem_of_list_singleton in Hs.
      + by apply Hif in Hin.
      + destruct Hok as [_ Hok]. by apply Het in Hok.
    - exists b. split; [done|]. rewrite H. assert (K : forall (l : list text) (L : list rule), (forall t, t ∈ l <-> t ∈ map rule_text L) -> (exists t, t ∈ l /\ netif_matches make_address fnmatch i t) <-> exists r, r ∈ L /\ netif_matches make_address fnmatch i (rule_text r)).
      { intros l L EL. split; [intros (t & (r & -> & Hr)%EL%elem_of_list_fmap & Hm); by exists r|]. intros (r & Hr & Hm). exists (rule_text r). split; [|done]. apply EL, elem_of_list_fmap. by exists r. }
      by rewrite (K _ _ Ew), (K _ _ Eb).
  Qed.
  (** Before anything is read every interface and address is accepted; an empty whitelist accepts none. *)
  Theorem C59_ends bl i x :
    netif_accepts make_address fnmatch pred_clear i = Some true /\ addr_accepts make_address pred_clear x = Some true /\
    netif_accepts make_address fnmatch (Predicate [] bl) i = Some false /\ addr_accepts make_address (Predicate [] bl) x = Some false.
  Proof using. done. Qed.
End Pred.
Print Assumptions C59_parse.
Print Assumptions C59_address.
Print Assumptions C59_interface_partial.
Print Assumptions C59_ends.

(** An interface name with a slash is accepted by the configuration and makes the predicate throw. *)
Theorem C59_throw_refuted : ~ forall mk fn eth items i p,
  parse_whitelist mk eth true items pred_clear = (p, true) -> netif_accepts mk fn p i <> None.
Proof. intros H. apply (H (fun _ => None) (fun _ _ => false) (fun _ => true) [(Ifname, [97; 47; 98]%N)] (Netif [] [] []) (Predicate [[97; 47; 98]%N] [])); done. Qed.
Print Assumptions C59_throw_refuted.

(** * Examples *)
(** 10.1.2.3/8: 10.255.0.9 is in it, 11.0.0.0 is not; the text may have zeros in front of the 8 *)
Definition mk_ex (t : text) : option addr := match t with [49; 48]%N => Some (V4 10 1 2 3) | [102]%N => Some (V6 (fe80 1) 0) | _ => None end.
Lemma mk_ex_wf t a : mk_ex t = Some a -> addr_wf a.
Proof.
  assert (Hin : mk_ex t = Some a -> a = V4 10 1 2 3 \/ a = V6 (fe80 1) 0).
  { unfold mk_ex. repeat (match goal with |- context [match ?x with _ => _ end] => destruct x end; try done); intros [= <-]; auto. }
  intros [-> | ->]%Hin; simpl.
  - repeat constructor.
  - split; [|done]. apply Forall_forall. intros x Hx. unfold fe80 in Hx. repeat (apply elem_of_cons in Hx as [->|Hx]; [done|]). by apply elem_of_nil in Hx.
Qed.
Definition ten : text := [49; 48; 47; 48; 56]%N.
Example ten_cidr : is_cidr mk_ex ten (V4 10 1 2 3) 8.
Proof.
  exists [49; 48]%N, [48; 56]%N. split; [done|]. split; [set_solver|]. split; [|split; [done|split; [done|split; [|split; [done|unfold width; simpl is_v4; cbv iota; lia]]]]].
  - intros c Hc. unfold ten in Hc. rewrite !elem_of_cons in Hc. destruct Hc as [->|[->|[->|[->|[->|Hc%elem_of_nil]]]]]; done.
  - intros c Hc. rewrite !elem_of_cons in Hc. destruct Hc as [->|[->|Hc%elem_of_nil]]; done.
Qed.
Example ten_ex : option_map (fun n => (does_contain n (V4 10 255 0 9), does_contain n (V4 11 0 0 0), does_contain n (V6 (fe80 1) 0))) (lex_network mk_ex ten) = Some (true, false, false).
Proof. by vm_compute. Qed.
(** interfaces with an address in the subnet, except those called "lo" *)
Definition eq_match (a b : text) : bool := text_eqb a b.
Example pred_ex :
  let p := fst (parse_blacklist mk_ex (fun _ => false) true [(Ifname, [108; 111]%N)] (fst (parse_whitelist mk_ex (fun _ => false) true [(Subnet, ten)] pred_clear))) in
  (netif_accepts mk_ex eq_match p (Netif [101]%N [] [V4 10 0 0 1]), netif_accepts mk_ex eq_match p (Netif [108; 111]%N [] [V4 10 0 0 1]), netif_accepts mk_ex eq_match p (Netif [101]%N [] [V4 9 0 0 1])) = (Some true, Some false, Some false).
Proof. by vm_compute. Qed.
Example bad_rule_ex : snd (parse_whitelist mk_ex (fun _ => false) false [(Subnet, ten); (Ifname, [108; 111]%N)] pred_clear) = false.
Proof. by vm_compute. Qed.
