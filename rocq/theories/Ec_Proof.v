(** Proofs about the Ethernet channel. *)
From stdpp Require Import gmap.
From Verif Require Import Lib Fm_Model Lp_Model Tp_Model Tp_Spec Tp_Proof Et_Model Et_Spec Ec_Model Ec_Spec.
Open Scope list_scope.

Local Ltac solve_perm := apply (Permutation_count_occ (List.list_eq_dec N.eq_dec)); intro; rewrite ?count_occ_app; lia.

Lemma passes_unicast local r f : passes 0 (unicast_filter local r) f = true <-> f_type 0 f = NDN_TYPE /\ f_src f = r /\ f_dst f = local.
Proof.
  cbn [unicast_filter passes]. unfold NDN_TYPE, ETHERTYPE_NDN. destruct (N.eqb_spec (f_type 0 f) 34340) as [E|E]; cbn [andb]; [|split; [done|tauto]].
  rewrite E. cbn. rewrite !andb_true_r, andb_true_iff, !bool_decide_eq_true. tauto.
Qed.
Lemma passes_channel local l f : passes 0 (channel_filter local l) f = true <-> f_type 0 f = NDN_TYPE /\ f_dst f = local /\ f_src f ∉ l.
Proof.
  cbn [channel_filter app passes]. unfold NDN_TYPE, ETHERTYPE_NDN. destruct (N.eqb_spec (f_type 0 f) 34340) as [E|E]; cbn [andb]; [|split; [done|tauto]].
  assert (Hp : passes 0 (map FNotSrc l ++ [FNotVlan]) f = true <-> f_src f ∉ l).
  { induction l as [|q l IH]; cbn [map app passes].
    - rewrite E. cbn. split; [intros _; apply not_elem_of_nil|done].
    - rewrite andb_true_iff, negb_true_iff, bool_decide_eq_false, IH, not_elem_of_cons. tauto. }
  rewrite andb_true_iff, bool_decide_eq_true, Hp. tauto.
Qed.
Lemma carries_spec local p f : carries local p f =
  if decide (60 <= length f /\ f_type 0 f = NDN_TYPE /\ f_src f = p /\ f_dst f = local) then fst <$> from_buffer (drop 14 f) else None.
Proof.
  unfold carries. destruct (decide _) as [(H1 & H2 & H3 & H4)|H].
  - destruct (Nat.leb_spec 60 (length f)); [|lia]. rewrite H2, N.eqb_refl. rewrite !bool_decide_eq_true_2 by done. done.
  - destruct (Nat.leb_spec 60 (length f)); [|done]. destruct (N.eqb_spec (f_type 0 f) NDN_TYPE); [|done]. cbn.
    destruct (bool_decide (f_src f = p)) eqn:B1; [|done]. destruct (bool_decide (f_dst f = local)) eqn:B2; [|done]. apply bool_decide_eq_true in B1, B2. tauto.
Qed.
Lemma check_spec debug local f : check_header debug local local f =
  if decide (60 <= length f /\ f_type 0 f = NDN_TYPE /\ (debug = true -> f_src f <> local /\ f_dst f = local)) then Some (f_src f) else None.
Proof.
  unfold check_header, HDR_LEN, MIN_DATA_LEN, ETHERTYPE_NDN, NDN_TYPE. destruct (Nat.ltb_spec (length f) (14 + 46)); [rewrite decide_False by lia; done|].
  destruct (N.eqb_spec (f_type 0 f) 34340) as [E|E]; cbn [negb]; [|rewrite decide_False by tauto; done].
  destruct debug; cbn [andb]; [|rewrite decide_True; [done|split; [lia|]; by split]].
  case_bool_decide as B1; [rewrite decide_False; [done|]; intros (_ & _ & Hx); destruct (Hx eq_refl); done|].
  case_bool_decide as B2; cbn [negb]; [rewrite decide_True; [done|split; [lia|]; by split]|rewrite decide_False; [done|]; intros (_ & _ & Hx); destruct (Hx eq_refl); done].
Qed.

Record q_inv (c : ec) : Prop := QInv {
  q_tidy : tidy c;
  q_open : forall id x, c_faces c !! id = Some x -> ef_open x = true;
  q_filter : forall p, p ∈ c_filter c <-> is_Some (c_peers c !! p);
  q_on : c_listening c = true /\ c_capturing c = true /\ c_waiting c = true;
  q_chan : forall f, f ∈ c_q c -> f_dst f = c_local c;
  q_face : forall id x f, c_faces c !! id = Some x -> f ∈ ef_q x -> f_dst f = c_local c /\ f_src f = ef_remote x;
}.

Lemma arrive_faces f c : c_faces (arrive f c) = face_arrive (c_local c) (capture f) <$> c_faces c.
Proof. done. Qed.
Lemma arrive_q f c : c_q (arrive f c) = c_q c ++ if c_capturing c && passes 0 (channel_filter (c_local c) (c_filter c)) (capture f) then [capture f] else [].
Proof. unfold arrive. destruct (_ && _); cbn; [done|by rewrite app_nil_r]. Qed.
Lemma arrive_rest f c : c_peers (arrive f c) = c_peers c /\ c_local (arrive f c) = c_local c /\ c_debug (arrive f c) = c_debug c /\ c_drain (arrive f c) = c_drain c /\ c_listening (arrive f c) = c_listening c /\
  c_capturing (arrive f c) = c_capturing c /\ c_waiting (arrive f c) = c_waiting c /\ c_filter (arrive f c) = c_filter c /\ c_next (arrive f c) = c_next c /\ c_told (arrive f c) = c_told c.
Proof. unfold arrive. destruct (_ && _); done. Qed.
Lemma face_arrive_rest l f x : ef_remote (face_arrive l f x) = ef_remote x /\ ef_open (face_arrive l f x) = ef_open x /\ ef_got (face_arrive l f x) = ef_got x /\ ef_pers (face_arrive l f x) = ef_pers x /\
  ef_q (face_arrive l f x) = ef_q x ++ if ef_open x && passes 0 (unicast_filter l (ef_remote x)) f then [f] else [].
Proof. unfold face_arrive. destruct (_ && _); cbn; [done|by rewrite app_nil_r]. Qed.

Lemma face_of_tidy c p x : tidy c -> face_of c p = Some x -> ef_remote x = p.
Proof. intros (H1 & _) E. unfold face_of in E. destruct (c_peers c !! p) as [id|] eqn:Ep; [|done]. destruct (H1 _ _ Ep) as (y & Ey & <-). congruence. Qed.
Lemma face_of_none c p : tidy c -> face_of c p = None <-> c_peers c !! p = None.
Proof. intros (H1 & _). unfold face_of. destruct (c_peers c !! p) as [id|] eqn:Ep; [|done]. destruct (H1 _ _ Ep) as (y & Ey & _). rewrite Ey. done. Qed.
Local Opaque capture carries face_arrive passes.

(** what became of the packets from [p] *)
Definition whereabouts (c : ec) (p : mac) : list (list N) :=
  passed_on c p ++ omap (carries (c_local c) p) (c_q c) ++ omap (carries (c_local c) p) (waits_at_face c p).

Lemma arrive_inv f c : q_inv c -> q_inv (arrive f c) /\ forall p, whereabouts (arrive f c) p ≡ₚ whereabouts c p ++ omap (carries (c_local c) p) [capture f].
Proof.
  intros [Ht Ho Hf Hn Hq Hfq]. destruct (arrive_rest f c) as (R1 & R2 & R3 & R4 & R5 & R6 & R7 & R8 & R9 & _). split.
  - constructor; rewrite ?R1, ?R2, ?R5, ?R6, ?R7, ?R8; try done.
    + destruct Ht as (T1 & T2 & T3). unfold tidy. rewrite R1, R9, arrive_faces. split; [|split].
      * intros p id E. destruct (T1 p id E) as (x & Ex & Er). exists (face_arrive (c_local c) (capture f) x). rewrite lookup_fmap, Ex. split; [done|]. by rewrite (proj1 (face_arrive_rest _ _ _)).
      * intros id x. rewrite lookup_fmap. destruct (c_faces c !! id) as [y|] eqn:Ey; [|done]. intros [= <-]. rewrite (proj1 (face_arrive_rest _ _ _)). by apply T2.
      * intros id. rewrite lookup_fmap. destruct (c_faces c !! id) eqn:Ey; [|by intros [? ?]]. intros _. apply T3. by eexists.
    + intros id x. rewrite arrive_faces, lookup_fmap. destruct (c_faces c !! id) as [y|] eqn:Ey; [|done]. intros [= <-]. destruct (face_arrive_rest (c_local c) (capture f) y) as (_ & -> & _). by apply (Ho id).
    + intros g. rewrite arrive_q, elem_of_app. intros [?|Hg]; [by apply Hq|]. destruct (c_capturing c && _) eqn:B; [|by apply not_elem_of_nil in Hg]. apply elem_of_list_singleton in Hg as ->.
      apply andb_true_iff in B as [_ B]. by apply passes_channel in B as (_ & ? & _).
    + intros id x g. rewrite arrive_faces, lookup_fmap. destruct (c_faces c !! id) as [y|] eqn:Ey; [|done]. intros [= <-]. destruct (face_arrive_rest (c_local c) (capture f) y) as (-> & _ & _ & _ & ->).
      rewrite elem_of_app. intros [?|Hg]; [by apply (Hfq id)|]. destruct (ef_open y && _) eqn:B; [|by apply not_elem_of_nil in Hg]. apply elem_of_list_singleton in Hg as ->.
      apply andb_true_iff in B as [_ B]. by apply passes_unicast in B as (_ & ? & ?).
  - intros p. unfold whereabouts. rewrite R2.
    assert (Hface : face_of (arrive f c) p = face_arrive (c_local c) (capture f) <$> face_of c p).
    { unfold face_of. rewrite R1, arrive_faces. destruct (c_peers c !! p); [|done]. by rewrite lookup_fmap. }
    unfold passed_on, waits_at_face. rewrite Hface, arrive_q, omap_app.
    assert (Hcap : c_capturing c = true) by tauto. rewrite Hcap. cbn [andb].
    set (ch := omap (carries (c_local c) p) (if passes 0 (channel_filter (c_local c) (c_filter c)) (capture f) then [capture f] else [])).
    set (fa := match face_arrive (c_local c) (capture f) <$> face_of c p with Some x => ef_q x | None => [] end).
    set (w := match face_of c p with Some x => ef_q x | None => [] end).
    assert (Hgot : match face_arrive (c_local c) (capture f) <$> face_of c p with Some x => ef_got x | None => [] end = match face_of c p with Some x => ef_got x | None => [] end).
    { destruct (face_of c p) as [y|]; [|done]. apply (face_arrive_rest (c_local c) (capture f) y). }
    rewrite Hgot.
    assert (Hsum : exists fa', omap (carries (c_local c) p) fa = omap (carries (c_local c) p) w ++ fa' /\ ch ++ fa' = omap (carries (c_local c) p) [capture f]).
    { destruct (carries (c_local c) p (capture f)) as [b|] eqn:Ec.
      - cbn. rewrite Ec. rewrite carries_spec in Ec. destruct (decide _) as [(L1 & L2 & L3 & L4)|]; [|done].
        destruct (face_of c p) as [y|] eqn:Ey.
        + assert (Hr : ef_remote y = p) by by eapply face_of_tidy. assert (Hop : ef_open y = true). { unfold face_of in Ey. destruct (c_peers c !! p); [|done]. by eapply Ho. }
          exists [b]. unfold fa, w. cbn [fmap option_fmap option_map]. destruct (face_arrive_rest (c_local c) (capture f) y) as (_ & _ & _ & _ & ->). rewrite Hop, Hr. cbn [andb].
          assert (passes 0 (unicast_filter (c_local c) p) (capture f) = true) as -> by by apply passes_unicast. rewrite omap_app. cbn.
          assert (Hcc : carries (c_local c) p (capture f) = Some b) by (rewrite carries_spec, decide_True by done; done). rewrite Hcc. split; [done|].
          unfold ch. destruct (passes 0 (channel_filter _ _) _) eqn:B; [|done]. apply passes_channel in B as (_ & _ & B). destruct B. rewrite L3. apply Hf.
          unfold face_of in Ey. destruct (c_peers c !! p); [by eexists|done].
        + exists []. unfold fa, w. cbn. split; [done|]. rewrite app_nil_r. unfold ch.
          assert (passes 0 (channel_filter (c_local c) (c_filter c)) (capture f) = true) as ->.
          { apply passes_channel. split; [done|]. split; [done|]. rewrite L3. intros Hin. apply Hf in Hin. apply face_of_none in Ey; [|done]. rewrite Ey in Hin. by destruct Hin. }
          cbn. assert (Hcc : carries (c_local c) p (capture f) = Some b) by (rewrite carries_spec, decide_True by done; done). by rewrite Hcc.
      - assert (Hnil : forall b : bool, omap (carries (c_local c) p) (if b then [capture f] else []) = []) by (intros []; cbn; rewrite ?Ec; done).
        exists []. split.
        + unfold fa, w. destruct (face_of c p) as [y|]; [|done]. cbn [fmap option_fmap option_map]. destruct (face_arrive_rest (c_local c) (capture f) y) as (_ & _ & _ & _ & ->). rewrite omap_app. f_equal. apply Hnil.
        + unfold ch. rewrite Hnil. cbn. by rewrite Ec. }
    destruct Hsum as (fa' & E1 & E2). rewrite E1, <-E2. solve_perm.
Qed.

Lemma keys_spec (m : gmap mac N) p : p ∈ map fst (map_to_list m) <-> is_Some (m !! p).
Proof.
  rewrite elem_of_list_fmap. split.
  - intros ([q n] & -> & Hin). apply elem_of_map_to_list in Hin. cbn. by eexists.
  - intros [n E]. exists (p, n). split; [done|]. by apply elem_of_map_to_list.
Qed.

(** making a face *)
Lemma create_inv remote p c r c' : q_inv c -> create_face remote p None [] true c = (r, c') ->
  q_inv c' /\ c_local c' = c_local c /\ c_debug c' = c_debug c /\ c_drain c' = c_drain c /\
  (exists created id, r = inr (created, id) /\ c_peers c' !! remote = Some id) /\
  exists lost, (c_drain c = false -> lost = []) /\ forall q, whereabouts c q ≡ₚ whereabouts c' q ++ omap (carries (c_local c) q) lost.
Proof.
  intros Hi E. unfold create_face in E. destruct (c_peers c !! remote) as [id|] eqn:Ep.
  { injection E as <- <-. split; [done|]. do 3 (split; [done|]). split; [by exists false, id|]. exists []. split; [done|]. intros q. cbn. by rewrite app_nil_r. }
  destruct Hi as [Ht Ho Hf Hn Hq Hfq]. destruct Hn as (N1 & N2 & N3).
  cbn [foldl] in E. unfold update_filter in E. cbn [c_listening c_capturing set_next set_faces set_peers] in E. rewrite N1, N2 in E. cbn [andb] in E. injection E as <- <-.
  destruct Ht as (T1 & T2 & T3).
  assert (Hnew : c_faces c !! c_next c = None). { destruct (c_faces c !! c_next c) eqn:Ex; [|done]. assert (c_next c < c_next c)%N by (apply T3; by eexists). lia. }
  split; [constructor; cbn|].
  - split; [|split].
    + cbn. intros q id. destruct (decide (q = remote)) as [->|Hne].
      * rewrite lookup_insert. intros [= <-]. eexists. by rewrite lookup_insert.
      * rewrite lookup_insert_ne by done. intros Eq. destruct (T1 q id Eq) as (x & Ex & Er). exists x. rewrite lookup_insert_ne; [done|]. intros Hx. rewrite Hx in Hnew. congruence.
    + cbn. intros id x. destruct (decide (id = c_next c)) as [->|Hne].
      * rewrite lookup_insert. intros [= <-]. cbn. by rewrite lookup_insert.
      * rewrite lookup_insert_ne by done. intros Ex. specialize (T2 id x Ex). rewrite lookup_insert_ne; [done|]. congruence.
    + cbn. intros id. destruct (decide (id = c_next c)) as [->|Hne]; [lia|]. rewrite lookup_insert_ne by done. intros Hs. specialize (T3 id Hs). lia.
  - intros id x. destruct (decide (id = c_next c)) as [->|Hne]; [rewrite lookup_insert; by intros [= <-]|]. rewrite lookup_insert_ne by done. apply Ho.
  - intros q. rewrite keys_spec. done.
  - done.
  - intros f. destruct (c_drain c); [by intros ?%not_elem_of_nil|]. apply Hq.
  - intros id x f. destruct (decide (id = c_next c)) as [->|Hne]; [rewrite lookup_insert; intros [= <-]; cbn; by intros ?%not_elem_of_nil|]. rewrite lookup_insert_ne by done. apply Hfq.
  - do 3 (split; [done|]). split; [exists true, (c_next c); split; [done|]; cbn; by rewrite lookup_insert|].
    exists (if c_drain c then c_q c else []). split; [by intros ->|]. intros q. unfold whereabouts, passed_on, waits_at_face, face_of. cbn.
    destruct (decide (q = remote)) as [->|Hne].
    + rewrite lookup_insert, lookup_insert, Ep. cbn. destruct (c_drain c); cbn; by rewrite ?app_nil_r.
    + rewrite lookup_insert_ne by done. destruct (c_peers c !! q) as [id|] eqn:Eq.
      * destruct (T1 q id Eq) as (x & Ex & Er). rewrite lookup_insert_ne by congruence. rewrite Ex. destruct (c_drain c); cbn; [solve_perm|by rewrite app_nil_r].
      * destruct (c_drain c); cbn; by rewrite ?app_nil_r.
Qed.

(** handing a payload to a face *)
Lemma deliver_rest id pl c : c_peers (deliver id pl c) = c_peers c /\ c_local (deliver id pl c) = c_local c /\ c_debug (deliver id pl c) = c_debug c /\ c_drain (deliver id pl c) = c_drain c /\
  c_listening (deliver id pl c) = c_listening c /\ c_capturing (deliver id pl c) = c_capturing c /\ c_waiting (deliver id pl c) = c_waiting c /\ c_filter (deliver id pl c) = c_filter c /\
  c_q (deliver id pl c) = c_q c /\ c_next (deliver id pl c) = c_next c /\ c_told (deliver id pl c) = c_told c.
Proof. unfold deliver. destruct (from_buffer pl) as [[]|]; done. Qed.
Lemma deliver_face id pl c j : c_faces (deliver id pl c) !! j =
  if decide (j = id) then (fun x => match from_buffer pl with Some (b, _) => add_ef_got b x | None => x end) <$> c_faces c !! j else c_faces c !! j.
Proof.
  unfold deliver. destruct (from_buffer pl) as [[b r]|]; cbn.
  - destruct (decide (j = id)) as [->|]; [by rewrite lookup_alter|by rewrite lookup_alter_ne].
  - destruct (decide (j = id)); [by destruct (c_faces c !! j)|done].
Qed.
Lemma deliver_inv id pl c : q_inv c -> q_inv (deliver id pl c).
Proof.
  intros [Ht Ho Hf Hn Hq Hfq]. destruct (deliver_rest id pl c) as (R1 & R2 & R3 & R4 & R5 & R6 & R7 & R8 & R9 & R10 & _).
  assert (Hback : forall j x, c_faces (deliver id pl c) !! j = Some x -> exists y, c_faces c !! j = Some y /\ ef_remote x = ef_remote y /\ ef_open x = ef_open y /\ ef_q x = ef_q y).
  { intros j x. rewrite deliver_face. destruct (decide (j = id)); [|intros Ex; by exists x]. destruct (c_faces c !! j) as [y|]; [|done]. intros [= <-]. exists y. split; [done|].
    destruct (from_buffer pl) as [[]|]; done. }
  constructor; rewrite ?R1, ?R2, ?R5, ?R6, ?R7, ?R8, ?R9; try done.
  - destruct Ht as (T1 & T2 & T3). unfold tidy. rewrite R1, R10. split; [|split].
    + intros p j E. destruct (T1 p j E) as (x & Ex & Er). rewrite deliver_face, Ex. destruct (decide (j = id)); [|by exists x]. eexists. split; [done|]. by destruct (from_buffer pl) as [[]|].
    + intros j x Ex. destruct (Hback j x Ex) as (y & Ey & -> & _). by apply T2.
    + intros j [x Ex]. destruct (Hback j x Ex) as (y & Ey & _). apply T3. by eexists.
  - intros j x Ex. destruct (Hback j x Ex) as (y & Ey & _ & -> & _). by apply (Ho j).
  - intros j x f Ex. destruct (Hback j x Ex) as (y & Ey & -> & _ & ->). by apply (Hfq j).
Qed.
(** ... whose address is [p]: exactly the packet is passed on *)
Lemma deliver_where id pl c p q : tidy c -> c_peers c !! p = Some id ->
  whereabouts (deliver id pl c) q ≡ₚ whereabouts c q ++ (if decide (q = p) then match from_buffer pl with Some (b, _) => [b] | None => [] end else []).
Proof.
  intros Ht Ep. destruct (deliver_rest id pl c) as (R1 & R2 & R3 & R4 & R5 & R6 & R7 & R8 & R9 & _). unfold whereabouts, passed_on, waits_at_face, face_of. rewrite R1, R2, R9.
  destruct (decide (q = p)) as [->|Hne].
  - rewrite Ep, deliver_face, decide_True by done. destruct Ht as (T1 & _). destruct (T1 p id Ep) as (x & Ex & _). rewrite Ex. cbn.
    destruct (from_buffer pl) as [[b r]|]; cbn; [|by rewrite app_nil_r]. solve_perm.
  - destruct (c_peers c !! q) as [j|] eqn:Eq; [|by rewrite ?app_nil_r]. assert (j <> id). { intros ->. destruct Ht as (T1 & _). destruct (T1 p id Ep) as (x & Ex & ?). destruct (T1 q id Eq) as (y & Ey & ?). congruence. }
    rewrite deliver_face, decide_False by done. by rewrite app_nil_r.
Qed.
Lemma tell_inv id c : q_inv c -> q_inv (tell id c).
Proof. intros [Ht Ho Hf Hn Hq Hfq]. by constructor. Qed.

Lemma header_carries debug local f q : q <> local -> f_dst f = local -> (* a frame that waits *)
  carries local q f = match check_header debug local local f with Some s => if decide (q = s) then fst <$> from_buffer (drop 14 f) else None | None => None end.
Proof.
  intros Hq Hd. rewrite carries_spec, check_spec. destruct (decide (60 <= length f /\ f_type 0 f = NDN_TYPE /\ (debug = true -> f_src f <> local /\ f_dst f = local))) as [(L1 & L2 & L3)|Hn].
  - destruct (decide (q = f_src f)) as [->|Hne]; [by rewrite decide_True|]. rewrite decide_False; [done|]. intros (_ & _ & ? & _). congruence.
  - rewrite decide_False; [done|]. intros (H1 & H2 & H3 & _). apply Hn. split; [done|]. split; [done|]. intros _. split; [congruence|done].
Qed.
Lemma fst_list {A B} (o : option (A * B)) : match fst <$> o with Some b => [b] | None => [] end = match o with Some (b, _) => [b] | None => [] end.
Proof. by destruct o as [[]|]. Qed.
Lemma omap_one {A B} (g : A -> option B) a l : omap g (a :: l) = match g a with Some b => [b] | None => [] end ++ omap g l.
Proof. cbn. by destruct (g a). Qed.

Lemma read_inv c c' : q_inv c -> read_channel None [] true c = Some c' ->
  q_inv c' /\ c_local c' = c_local c /\ c_drain c' = c_drain c /\
  exists lost, (c_drain c = false -> lost = []) /\ forall q, q <> c_local c -> whereabouts c q ≡ₚ whereabouts c' q ++ omap (carries (c_local c) q) lost.
Proof.
  intros Hi E. unfold read_channel in E. destruct (c_q c) as [|f l] eqn:Eq.
  { injection E as <-. split; [done|]. do 2 (split; [done|]). exists []. split; [done|]. intros q _. cbn. by rewrite app_nil_r. }
  set (c1 := set_filter (c_filter c) l c) in *.
  assert (Hd : f_dst f = c_local c) by (apply (q_chan _ Hi); rewrite Eq; by left).
  assert (Hi1 : q_inv c1). { destruct Hi as [Ht Ho Hf Hn Hq Hfq]. constructor; try done. intros g Hg. apply Hq. rewrite Eq. by right. }
  assert (Hw1 : forall q, whereabouts c q ≡ₚ whereabouts c1 q ++ match carries (c_local c) q f with Some b => [b] | None => [] end).
  { intros q. unfold whereabouts. rewrite Eq, omap_one. change (passed_on c1 q) with (passed_on c q). change (waits_at_face c1 q) with (waits_at_face c q). cbn [c_q c1 set_filter c_local]. solve_perm. }
  pose proof (header_carries (c_debug c) (c_local c) f) as Hh.
  destruct (check_header (c_debug c) (c_local c) (c_local c) f) as [sender|] eqn:Ech.
  - destruct (create_face sender OnDemand None [] true c1) as [r c2] eqn:Ecr. destruct (create_inv sender OnDemand c1 r c2 Hi1 Ecr) as (Hi2 & L1 & L2 & L3 & (created & id & -> & Hp) & lost & Hl & Hw2).
    injection E as <-.
    set (c3 := if created then tell id c2 else c2).
    assert (Hi3 : q_inv c3) by (unfold c3; destruct created; [by apply tell_inv|done]).
    assert (Hp3 : c_peers c3 !! sender = Some id) by (unfold c3; destruct created; done).
    assert (Hw3 : forall q, whereabouts c3 q = whereabouts c2 q) by (intros q; unfold c3; destruct created; done).
    assert (L13 : c_local c3 = c_local c /\ c_drain c3 = c_drain c) by (unfold c3; destruct created; done).
    destruct (deliver_rest id (drop HDR_LEN f) c3) as (_ & D2 & _ & D4 & _).
    split; [by apply deliver_inv|]. rewrite D2, D4. do 2 (split; [by apply L13|]). exists lost. split; [exact Hl|]. intros q Hq.
    rewrite Hw1. rewrite Hw2. rewrite (deliver_where id (drop HDR_LEN f) c3 sender q) by (try apply Hi3; done). rewrite Hw3. rewrite Hh by done.
    change HDR_LEN with 14. change (c_local c1) with (c_local c). destruct (decide (q = sender)) as [->|].
    + rewrite fst_list. solve_perm.
    + by rewrite !app_nil_r.
  - injection E as <-. split; [done|]. do 2 (split; [done|]). exists []. split; [done|]. intros q Hq. rewrite Hw1, Hh by done. cbn. by rewrite !app_nil_r.
Qed.
Lemma read_face_inv id c : q_inv c -> let c' := read_face id c in
  q_inv c' /\ c_local c' = c_local c /\ c_drain c' = c_drain c /\ forall q, q <> c_local c -> whereabouts c q ≡ₚ whereabouts c' q.
Proof.
  intros Hi c'. unfold c', read_face. destruct (c_faces c !! id) as [x|] eqn:Ex; [|done]. destruct (ef_q x) as [|f l] eqn:Eq; [done|].
  set (c1 := set_faces (<[id := set_ef_q l x]> (c_faces c)) c) in *.
  destruct Hi as [Ht Ho Hf Hn Hq Hfq]. destruct (Hfq id x f Ex) as [Hd Hs]; [rewrite Eq; by left|].
  assert (Hback : forall j y, c_faces c1 !! j = Some y -> exists z, c_faces c !! j = Some z /\ ef_remote y = ef_remote z /\ ef_open y = ef_open z /\ forall g, g ∈ ef_q y -> g ∈ ef_q z).
  { intros j y. cbn. destruct (decide (j = id)) as [->|Hne].
    - rewrite lookup_insert. intros [= <-]. exists x. split; [done|]. do 2 (split; [done|]). intros g Hg. cbn in Hg. rewrite Eq. by right.
    - rewrite lookup_insert_ne by done. intros Ey. by exists y. }
  assert (Hi1 : q_inv c1).
  { destruct Ht as (T1 & T2 & T3). constructor; try done.
    - split; [|split].
      + intros p j E. destruct (T1 p j E) as (y & Ey & Er). cbn. destruct (decide (j = id)) as [->|Hne].
        * rewrite lookup_insert. eexists. split; [done|]. cbn. congruence.
        * rewrite lookup_insert_ne by done. by exists y.
      + intros j y Ey. destruct (Hback j y Ey) as (z & Ez & -> & _). by apply T2.
      + intros j [y Ey]. destruct (Hback j y Ey) as (z & Ez & _). apply T3. by eexists.
    - intros j y Ey. destruct (Hback j y Ey) as (z & Ez & _ & -> & _). by apply (Ho j).
    - intros j y g Ey Hg. destruct (Hback j y Ey) as (z & Ez & -> & _ & Hz). apply (Hfq j); [done|]. by apply Hz. }
  assert (Hp : c_peers c !! ef_remote x = Some id) by by apply Ht.
  assert (Hw1 : forall q, whereabouts c q ≡ₚ whereabouts c1 q ++ (if decide (q = ef_remote x) then match carries (c_local c) q f with Some b => [b] | None => [] end else [])).
  { intros q. unfold whereabouts, passed_on, waits_at_face, face_of. cbn. destruct (decide (q = ef_remote x)) as [->|Hne].
    - rewrite Hp, lookup_insert, Ex, Eq, omap_one. cbn. solve_perm.
    - destruct (c_peers c !! q) as [j|] eqn:Ej; [|by rewrite ?app_nil_r]. assert (j <> id). { intros ->. destruct Ht as (T1 & _). destruct (T1 q id Ej) as (y & Ey & ?). congruence. }
      rewrite lookup_insert_ne by done. by rewrite app_nil_r. }
  pose proof (header_carries (c_debug c) (c_local c) f) as Hh.
  destruct (check_header (c_debug c) (c_local c) (c_local c) f) as [sender|] eqn:Ech.
  - assert (sender = ef_remote x) as ->. { rewrite check_spec in Ech. destruct (decide _); [|done]. congruence. }
    destruct (deliver_rest id (drop HDR_LEN f) c1) as (_ & D2 & _ & D4 & _). rewrite D2, D4. split; [by apply deliver_inv|]. do 2 (split; [done|]). intros q Hq'.
    rewrite Hw1. rewrite (deliver_where id (drop HDR_LEN f) c1 (ef_remote x) q) by first [exact Hp|exact (q_tidy _ Hi1)]. rewrite Hh by done. change HDR_LEN with 14.
    destruct (decide (q = ef_remote x)); [by rewrite fst_list|done].
  - split; [done|]. do 2 (split; [done|]). intros q Hq'. rewrite Hw1, Hh by done. destruct (decide _); by rewrite app_nil_r.
Qed.

Lemma start_inv local debug drain : q_inv (ec_start local debug drain).
Proof.
  constructor; cbn; try done.
  - split; [|split]; cbn; [done|done|]. intros id [x E]. done.
  - intros p. cbn. rewrite map_to_list_empty. cbn. split; [by intros ?%not_elem_of_nil|]. intros [x E]. done.
  - intros f. destruct drain; by intros ?%not_elem_of_nil.
Qed.
Lemma quiet_inv local debug drain fs c : ec_quiet (ec_start local debug drain) fs c ->
  q_inv c /\ c_local c = local /\ c_drain c = drain /\
  exists lost, (drain = false -> lost = []) /\ forall p, p <> local -> omap (carries local p) fs ≡ₚ whereabouts c p ++ omap (carries local p) lost.
Proof.
  intros H. induction H as [|fs c e c' H IH Hq E].
  - split; [apply start_inv|]. do 2 (split; [done|]). exists []. split; [done|]. intros p _. unfold whereabouts. cbn. by destruct drain.
  - destruct IH as (Hi & L1 & L2 & lost & Hl & Hw). subst local. subst drain. destruct e as [os ok|remote p os gap ok|f|os gap ok|id| | |]; try done; cbn [ec_step] in E.
    + unfold listen in E. rewrite (proj1 (q_on _ Hi)) in E. injection E as <-. split; [done|]. do 2 (split; [done|]). by exists lost.
    + destruct Hq as (-> & -> & ->). injection E as <-. unfold connect. destruct (create_face remote p None [] true c) as [r c2] eqn:Ec.
      destruct (create_inv _ _ _ _ _ Hi Ec) as (Hi2 & G1 & G2 & G3 & (created & id & -> & Hp) & lost' & Hl' & Hw'). cbn.
      split; [by apply tell_inv|]. do 2 (split; [done|]). exists (lost ++ lost'). split; [intros Hd; by rewrite Hl, Hl'|].
      intros q Hq. rewrite Hw by done. rewrite Hw'. rewrite omap_app. change (whereabouts (tell id c2) q) with (whereabouts c2 q). solve_perm.
    + injection E as <-. destruct (arrive_inv f c Hi) as [Hi' Hw']. destruct (arrive_rest f c) as (_ & R2 & _ & R4 & _). split; [done|]. do 2 (split; [done|]). exists lost. split; [done|].
      intros q Hq'. rewrite omap_app, Hw by done. rewrite Hw'. solve_perm.
    + destruct Hq as (-> & -> & ->). rewrite (proj2 (proj2 (q_on _ Hi))) in E. destruct (read_inv _ _ Hi E) as (Hi2 & G1 & G2 & lost' & Hl' & Hw').
      split; [done|]. do 2 (split; [done|]). exists (lost ++ lost'). split; [intros Hd; by rewrite Hl, Hl'|].
      intros q Hq. rewrite Hw by done. rewrite Hw' by done. rewrite omap_app. solve_perm.
    + injection E as <-. destruct (read_face_inv id c Hi) as (Hi2 & G1 & G2 & Hw'). split; [done|]. do 2 (split; [done|]). exists lost. split; [done|].
      intros q Hq'. rewrite Hw by done. by rewrite Hw'.
Qed.
