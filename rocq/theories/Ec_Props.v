(** C78: Ethernet channels. *)
From stdpp Require Import gmap.
From Verif Require Import Lib Fm_Model Lp_Model Tp_Model Tp_Spec Tp_Proof Et_Model Et_Spec Et_Proof Et_Props Ec_Model Ec_Spec Ec_Proof.
Open Scope list_scope.

(** ** Packets in frames *)
(** [carries] finds the packet that a frame brings. *)
Theorem C78_carries local p f b : carries local p f = Some b <-> carried local p f b.
Proof.
  rewrite carries_spec. split.
  - destruct (decide _) as [(H1 & H2 & H3 & H4)|]; [|done]. intros E. destruct (from_buffer (drop 14 f)) as [[b' r]|] eqn:Eb; [|done]. injection E as <-.
    apply from_buffer_spec in Eb as [Eb Hb]. destruct (C77_fields f) as (dst & src & type & payload & Hf); [lia|]. destruct (fields _ _ _ _ _ Hf) as (F1 & F2 & F3 & F4 & F5).
    exists payload, r. split; [|split; [lia|split; [congruence|done]]]. congruence.
  - intros (payload & r & Hf & Hl & Hp & Hb). destruct (fields _ _ _ _ _ Hf) as (F1 & F2 & F3 & F4 & F5). rewrite decide_True by (split; [lia|done]).
    assert (from_buffer (drop 14 f) = Some (b, r)) as ->; [|done]. rewrite F4. by apply from_buffer_spec.
Qed.

(** ** Delivery *)
(** As long as nothing fails or is closed, no frame arrives while a face is being made, and setting a filter discards nothing: of the packets that arrived from a peer, every one was passed on
    by the peer's face exactly once, or waits in the queue of the channel or of that face. *)
Theorem C78_delivery local debug fs c p : ec_quiet (ec_start local debug false) fs c -> p <> local ->
  omap (carries local p) fs ≡ₚ passed_on c p ++ omap (carries local p) (c_q c) ++ omap (carries local p) (waits_at_face c p).
Proof.
  intros H Hp. destruct (quiet_inv _ _ _ _ _ H) as (_ & L & _ & lost & Hl & Hw). rewrite (Hw p Hp), (Hl eq_refl). unfold whereabouts. rewrite L. cbn. by rewrite app_nil_r.
Qed.
(** If setting a filter discards frames, at least no packet is passed on more often than it arrived. *)
Theorem C78_at_most_once local debug drain fs c p : ec_quiet (ec_start local debug drain) fs c -> p <> local -> passed_on c p ⊆+ omap (carries local p) fs.
Proof.
  intros H Hp. destruct (quiet_inv _ _ _ _ _ H) as (_ & _ & _ & lost & _ & Hw). rewrite (Hw p Hp). unfold whereabouts. rewrite <-!app_assoc. apply submseteq_inserts_r. done.
Qed.

(** ** Any history *)
Lemma tidy_ext c c' : c_peers c' = c_peers c -> c_next c' = c_next c -> (forall id, ef_remote <$> c_faces c' !! id = ef_remote <$> c_faces c !! id) -> tidy c -> tidy c'.
Proof.
  intros Hp Hn Hf (T1 & T2 & T3). unfold tidy. rewrite Hp, Hn. split; [|split].
  - intros p id E. destruct (T1 p id E) as (x & Ex & Er). specialize (Hf id). rewrite Ex in Hf. destruct (c_faces c' !! id) as [y|]; [|done]. exists y. split; [done|]. cbn in Hf. congruence.
  - intros id x E. specialize (Hf id). rewrite E in Hf. destruct (c_faces c !! id) as [y|] eqn:Ey; [|done]. cbn in Hf. injection Hf as ->. by apply T2.
  - intros id [x E]. apply T3. specialize (Hf id). rewrite E in Hf. destruct (c_faces c !! id); [by eexists|done].
Qed.
Definition arrivals (gap : list (list N)) (c : ec) : ec := foldl (fun c f => arrive f c) c gap.
Lemma arrivals_rest gap c : let c' := arrivals gap c in
  c_peers c' = c_peers c /\ c_next c' = c_next c /\ (forall id, ef_remote <$> c_faces c' !! id = ef_remote <$> c_faces c !! id) /\
  c_local c' = c_local c /\ c_listening c' = c_listening c /\ c_capturing c' = c_capturing c /\ c_filter c' = c_filter c /\ c_told c' = c_told c /\ c_drain c' = c_drain c.
Proof.
  revert c. induction gap as [|f gap IH]; intros c; [done|]. cbn zeta. change (arrivals (f :: gap) c) with (arrivals gap (arrive f c)).
  destruct (IH (arrive f c)) as (I1 & I2 & I3 & I4 & I5 & I6 & I7 & I8 & I9). destruct (arrive_rest f c) as (R1 & R2 & R3 & R4 & R5 & R6 & R7 & R8 & R9 & R10).
  split; [congruence|]. split; [congruence|]. split; [|repeat split; congruence]. intros id. rewrite I3, arrive_faces, lookup_fmap. destruct (c_faces c !! id) as [x|]; [|done]. cbn.
  f_equal. apply (face_arrive_rest (c_local c) (capture f) x).
Qed.
Lemma filter_rest ok c c' : update_filter ok c = Some c' -> c_peers c' = c_peers c /\ c_next c' = c_next c /\ c_faces c' = c_faces c /\ c_local c' = c_local c /\ c_listening c' = c_listening c /\
  c_capturing c' = c_capturing c /\ c_told c' = c_told c.
Proof. unfold update_filter. destruct (c_listening c) eqn:El; [destruct (_ && _); [|done]|]; intros [= <-]; cbn; rewrite ?El; done. Qed.
Definition new_face (r : mac) (p : persistency) (c : ec) : ec :=
  set_next (c_next c + 1) (set_faces (<[c_next c := EFace r p true [] []]> (c_faces c)) (set_peers (<[r := c_next c]> (c_peers c)) c)).
Lemma new_tidy r p c : tidy c -> c_peers c !! r = None -> tidy (new_face r p c).
Proof.
  intros (T1 & T2 & T3) Ep.
  assert (Hnew : c_faces c !! c_next c = None). { destruct (c_faces c !! c_next c) eqn:Ex; [|done]. assert (c_next c < c_next c)%N by (apply T3; by eexists). lia. }
  split; [|split]; cbn.
  - intros q id. destruct (decide (q = r)) as [->|Hne].
    + rewrite lookup_insert. intros [= <-]. eexists. by rewrite lookup_insert.
    + rewrite lookup_insert_ne by done. intros Eq. destruct (T1 q id Eq) as (x & Ex & Er). exists x. rewrite lookup_insert_ne; [done|]. intros Hx. rewrite Hx in Hnew. congruence.
  - intros id x. destruct (decide (id = c_next c)) as [->|Hne].
    + rewrite lookup_insert. intros [= <-]. cbn. by rewrite lookup_insert.
    + rewrite lookup_insert_ne by done. intros Ex. specialize (T2 id x Ex). rewrite lookup_insert_ne; [done|]. congruence.
  - intros id. destruct (decide (id = c_next c)) as [->|Hne]; [lia|]. rewrite lookup_insert_ne by done. intros Hs. specialize (T3 id Hs). lia.
Qed.
Lemma create_cases r p os gap ok c res c' : create_face r p os gap ok c = (res, c') ->
  (exists id, c_peers c !! r = Some id /\ res = inr (false, id) /\ c' = c) \/
  (c_peers c !! r = None /\ exists x, os = Some x /\ res = inl x /\ c' = c) \/
  (c_peers c !! r = None /\ os = None /\ let c2 := arrivals gap (new_face r p c) in
    (update_filter ok c2 = Some c' /\ res = inr (true, c_next c)) \/ (update_filter ok c2 = None /\ res = inl XPcap /\ c' = c2)).
Proof.
  unfold create_face. destruct (c_peers c !! r) as [id|]; [intros [= <- <-]; left; by exists id|]. destruct os as [x|]; [intros [= <- <-]; right; left; split; [done|]; by exists x|].
  intros E. right. right. do 2 (split; [done|]). change (foldl (fun c f => arrive f c) (set_next (c_next c + 1) _) gap) with (arrivals gap (new_face r p c)) in E. cbn zeta.
  destruct (update_filter ok (arrivals gap (new_face r p c))) as [c3|]; injection E as <- <-; [by left|by right].
Qed.
Lemma create_tidy r p os gap ok c res c' : tidy c -> create_face r p os gap ok c = (res, c') -> tidy c'.
Proof.
  intros Ht E. destruct (create_cases _ _ _ _ _ _ _ _ E) as [(id & _ & _ & ->)|[(_ & x & _ & _ & ->)|(Ep & _ & H)]]; [done..|]. cbn zeta in H.
  destruct (arrivals_rest gap (new_face r p c)) as (A1 & A2 & A3 & _).
  assert (tidy (arrivals gap (new_face r p c))) by (eapply tidy_ext; [exact A1|exact A2|exact A3|by apply new_tidy]).
  destruct H as [[Hu _]|(_ & _ & ->)]; [|done]. destruct (filter_rest _ _ _ Hu) as (U1 & U2 & U3 & _). eapply tidy_ext; [exact U1|exact U2| |done]. intros id. by rewrite U3.
Qed.
Lemma deliver_tidy id pl c : tidy c -> tidy (deliver id pl c).
Proof.
  intros Ht. destruct (deliver_rest id pl c) as (R1 & _ & _ & _ & _ & _ & _ & _ & _ & R10 & _). eapply tidy_ext; [exact R1|exact R10| |done]. intros j. rewrite deliver_face.
  destruct (decide (j = id)); [|done]. destruct (c_faces c !! j); [|done]. cbn. by destruct (from_buffer pl) as [[]|].
Qed.
Lemma step_tidy c e c' : tidy c -> ec_step c e = Some c' -> tidy c'.
Proof.
  intros Ht E. destruct e as [os ok|r p os gap ok|f|os gap ok|id| |id|id ok]; cbn [ec_step] in E.
  - injection E as <-. unfold listen. destruct (c_listening c); [done|]. destruct os; [|done]. destruct (update_filter _ _) as [c2|] eqn:Eu; [|done]. destruct (filter_rest _ _ _ Eu) as (U1 & U2 & U3 & _).
    eapply (tidy_ext c); [exact U1|exact U2| |done]. intros id. cbn. by rewrite U3.
  - injection E as <-. unfold connect. destruct (create_face r p os gap ok c) as [res c2] eqn:Ec. pose proof (create_tidy _ _ _ _ _ _ _ _ Ht Ec). by destruct res as [[]|[]].
  - injection E as <-. destruct (arrivals_rest [f] c) as (A1 & A2 & A3 & _). by eapply tidy_ext; [exact A1|exact A2|exact A3|].
  - destruct (c_waiting c); [|by injection E as <-]. unfold read_channel in E. destruct (c_q c) as [|f q]; [by injection E as <-|].
    destruct (check_header _ _ _ _) as [s|]; [|by injection E as <-]. destruct (create_face s OnDemand os gap ok _) as [res c2] eqn:Ec. apply create_tidy in Ec; [|done].
    destruct res as [[]|[created id]]; try done; injection E as <-; [done|]. apply deliver_tidy. by destruct created.
  - injection E as <-. unfold read_face. destruct (c_faces c !! id) as [x|] eqn:Ex; [|done]. destruct (ef_q x) as [|f q]; [done|].
    set (c1 := set_faces _ c). assert (tidy c1).
    { apply (tidy_ext c); [done|done| |done]. intros j. cbn. destruct (decide (j = id)) as [->|]; [by rewrite lookup_insert, Ex|by rewrite lookup_insert_ne]. }
    destruct (check_header _ _ _ _); [by apply deliver_tidy|done].
  - by injection E as <-.
  - injection E as <-. apply (tidy_ext c); [done|done| |done]. intros j. cbn. destruct (decide (j = id)) as [->|]; [rewrite lookup_alter|by rewrite lookup_alter_ne]. by destruct (c_faces c !! id).
  - unfold closed in E. destruct (c_faces c !! id) as [x|] eqn:Ex; [|by injection E as <-]. destruct (filter_rest _ _ _ E) as (U1 & U2 & U3 & _). destruct Ht as (T1 & T2 & T3).
    apply (tidy_ext (set_faces (delete id (c_faces c)) (set_peers (delete (ef_remote x) (c_peers c)) c))); [exact U1|exact U2|intros j; by rewrite U3|].
    split; [|split]; cbn.
    + intros p j. destruct (decide (p = ef_remote x)) as [->|]; [by rewrite lookup_delete|]. rewrite lookup_delete_ne by done. intros Ep. destruct (T1 p j Ep) as (y & Ey & Er). exists y.
      rewrite lookup_delete_ne; [done|]. intros ->. congruence.
    + intros j y. destruct (decide (j = id)) as [->|]; [by rewrite lookup_delete|]. rewrite lookup_delete_ne by done. intros Ey. specialize (T2 j y Ey) as Ty. specialize (T2 id x Ex) as Tx.
      rewrite lookup_delete_ne; [done|]. congruence.
    + intros j [y Ey]. apply T3. destruct (decide (j = id)) as [->|]; [by rewrite lookup_delete in Ey|]. rewrite lookup_delete_ne in Ey by done. by eexists.
Qed.
Lemma new_channel_tidy local debug drain : tidy (ec_new local debug drain).
Proof. split; [|split]; [done|done|]. intros id [x E]. done. Qed.
(** Whatever happens, the channel's table and the faces that are not CLOSED correspond to each other: each entry is a face with that address, and each face is the entry of its address. *)
Theorem C78_table local debug drain c : ec_any (ec_new local debug drain) c -> tidy c.
Proof. intros H. induction H as [|c e c' H IH E]; [apply new_channel_tidy|by eapply step_tidy]. Qed.
(** So there are never two faces for one peer. *)
Theorem C78_one_face local debug drain c i j x y :
  ec_any (ec_new local debug drain) c -> c_faces c !! i = Some x -> c_faces c !! j = Some y -> ef_remote x = ef_remote y -> i = j.
Proof. intros H Ex Ey Er. destruct (C78_table _ _ _ _ H) as (_ & T2 & _). pose proof (T2 i x Ex) as E1. pose proof (T2 j y Ey) as E2. congruence. Qed.

(** ** The channel's filter *)
Record s_inv (c : ec) : Prop := SInv {
  s_tidy : tidy c;
  s_same : c_listening c = c_capturing c;
  s_filter : c_listening c = true -> forall p, p ∈ c_filter c <-> is_Some (c_peers c !! p);
}.
Lemma s_same_state c c' : c_peers c' = c_peers c -> c_next c' = c_next c -> (forall id, ef_remote <$> c_faces c' !! id = ef_remote <$> c_faces c !! id) ->
  c_listening c' = c_listening c -> c_capturing c' = c_capturing c -> c_filter c' = c_filter c -> s_inv c -> s_inv c'.
Proof. intros H1 H2 H3 H4 H5 H6 [Ht Hs Hf]. constructor; [by eapply tidy_ext|congruence|]. rewrite H1, H4, H6. done. Qed.
Lemma s_update c c' : tidy c -> c_listening c = c_capturing c -> update_filter true c = Some c' -> s_inv c'.
Proof.
  intros Ht Hs E. destruct (filter_rest _ _ _ E) as (U1 & U2 & U3 & _ & U5 & U6 & _). constructor; [|congruence|].
  - eapply tidy_ext; [exact U1|exact U2| |done]. intros id. by rewrite U3.
  - rewrite U1, U5. intros Hl p. unfold update_filter in E. rewrite <-Hs, Hl in E. cbn in E. injection E as <-. cbn. apply keys_spec.
Qed.
Lemma s_create r p os gap c res c' : s_inv c -> create_face r p os gap true c = (res, c') -> s_inv c'.
Proof.
  intros Hi E. destruct (create_cases _ _ _ _ _ _ _ _ E) as [(id & _ & _ & ->)|[(_ & x & _ & _ & ->)|(Ep & _ & H)]]; [done..|]. cbn zeta in H.
  destruct (arrivals_rest gap (new_face r p c)) as (A1 & A2 & A3 & A4 & A5 & A6 & _). destruct Hi as [Ht Hs Hf].
  assert (tidy (arrivals gap (new_face r p c))) by (eapply tidy_ext; [exact A1|exact A2|exact A3|by apply new_tidy]).
  destruct H as [[Hu _]|(Hu & _ & ->)]; [apply (s_update (arrivals gap (new_face r p c))); [done|rewrite A5, A6; exact Hs|done]|].
  unfold update_filter in Hu. rewrite A5, A6 in Hu. cbn in Hu. rewrite <-Hs in Hu. destruct (c_listening c); done.
Qed.
Lemma s_deliver id pl c : s_inv c -> s_inv (deliver id pl c).
Proof.
  intros [Ht Hs Hf]. destruct (deliver_rest id pl c) as (R1 & R2 & R3 & R4 & R5 & R6 & R7 & R8 & R9 & R10 & _). constructor; [by apply deliver_tidy|congruence|]. rewrite R1, R5, R8. done.
Qed.
Lemma smooth_inv local debug drain c : ec_smooth (ec_new local debug drain) c -> s_inv c.
Proof.
  intros H. induction H as [|c e c' H IH Hq E]; [constructor; [apply new_channel_tidy|done|done]|].
  assert (Ht' : tidy c') by (eapply step_tidy; [by apply IH|done]). pose proof IH as [Ht Hs Hf].
  destruct e as [os ok|r p os gap ok|f|os gap ok|id| |id|id ok]; cbn [ec_step] in E; cbn in Hq.
  - destruct Hq as [-> ->]. injection E as <-. unfold listen. destruct (c_listening c) eqn:El; [done|].
    unfold update_filter. cbn. constructor; [|done|intros _ p; cbn; apply keys_spec]. apply (tidy_ext c); try done.
  - subst ok. injection E as <-. unfold connect. destruct (create_face r p os gap true c) as [res c2] eqn:Ec. apply s_create in Ec; [|done].
    destruct res as [[]|[]]; cbn; try done. by apply (s_same_state c2).
  - injection E as <-. destruct (arrivals_rest [f] c) as (A1 & A2 & A3 & _ & A5 & A6 & A7 & _). by apply (s_same_state c).
  - subst ok. destruct (c_waiting c); [|by injection E as <-]. unfold read_channel in E. destruct (c_q c) as [|f q]; [by injection E as <-|].
    assert (Hi1 : s_inv (set_filter (c_filter c) q c)) by by apply (s_same_state c).
    destruct (check_header _ _ _ _) as [s|]; [|by injection E as <-]. destruct (create_face s OnDemand os gap true _) as [res c2] eqn:Ec. apply s_create in Ec; [|done].
    destruct res as [[]|[created id]]; try done; injection E as <-; [done|]. apply s_deliver. destruct created; [|done]. by apply (s_same_state c2).
  - injection E as <-. constructor; [done| |]; unfold read_face; (destruct (c_faces c !! id) as [x|]; [|done]); (destruct (ef_q x) as [|f q]; [done|]); (destruct (check_header _ _ _ _); [|done]);
      destruct (deliver_rest id (drop HDR_LEN f) (set_faces (<[id:=set_ef_q q x]> (c_faces c)) c)) as (R1 & _ & _ & _ & R5 & R6 & _ & R8 & _); rewrite ?R1, ?R5, ?R6, ?R8; done.
  - injection E as <-. by constructor.
  - injection E as <-. by constructor.
  - subst ok. unfold closed in E. destruct (c_faces c !! id) as [x|] eqn:Ex; [|by injection E as <-].
    assert (Htt : tidy (set_faces (delete id (c_faces c)) (set_peers (delete (ef_remote x) (c_peers c)) c))).
    { destruct (filter_rest _ _ _ E) as (U1 & U2 & U3 & _). eapply (tidy_ext c'); [symmetry; exact U1|symmetry; exact U2| |done]. intros j. by rewrite U3. }
    eapply s_update; [exact Htt|exact Hs|exact E].
Qed.
(** As long as libpcap takes the filters, the filter of a channel that listens excludes exactly the peers that have a face. *)
Theorem C78_filter local debug drain c : ec_smooth (ec_new local debug drain) c -> c_listening c = true -> forall p, p ∈ c_filter c <-> is_Some (c_peers c !! p).
Proof. intros H. apply (s_filter _ (smooth_inv _ _ _ _ H)). Qed.
(** A frame waits where its filter lets it through: at the channel, if it has the type of NDN, the channel's address and a source that the filter does not exclude; at each open face with
    that source; and nothing else changes. *)
Theorem C78_arrive f c dst src type payload : is_frame (capture f) dst src type payload ->
  c_q (arrive f c) = c_q c ++ (if decide (c_capturing c = true /\ type = NDN_TYPE /\ dst = c_local c /\ src ∉ c_filter c) then [capture f] else []) /\
  (forall id, c_faces (arrive f c) !! id = (fun x => EFace (ef_remote x) (ef_pers x) (ef_open x)
     (ef_q x ++ if decide (ef_open x = true /\ type = NDN_TYPE /\ dst = c_local c /\ src = ef_remote x) then [capture f] else []) (ef_got x)) <$> c_faces c !! id) /\
  c_peers (arrive f c) = c_peers c /\ c_local (arrive f c) = c_local c /\ c_listening (arrive f c) = c_listening c /\ c_capturing (arrive f c) = c_capturing c /\
  c_waiting (arrive f c) = c_waiting c /\ c_filter (arrive f c) = c_filter c /\ c_next (arrive f c) = c_next c /\ c_told (arrive f c) = c_told c.
Proof.
  intros Hf. destruct (fields _ _ _ _ _ Hf) as (F1 & F2 & F3 & _). destruct (arrive_rest f c) as (R1 & R2 & R3 & R4 & R5 & R6 & R7 & R8 & R9 & R10). split; [|split; [|done]].
  - rewrite arrive_q. f_equal. destruct (c_capturing c); cbn [andb]; [|rewrite decide_False by (intros [? _]; done); done].
    destruct (passes 0 (channel_filter (c_local c) (c_filter c)) (capture f)) eqn:B.
    + apply passes_channel in B. rewrite decide_True; [done|]. rewrite F1, F2, F3 in B. tauto.
    + rewrite decide_False; [done|]. intros (_ & H1 & H2 & H3). assert (passes 0 (channel_filter (c_local c) (c_filter c)) (capture f) = true); [|congruence]. apply passes_channel. by rewrite F1, F2, F3.
  - intros id. rewrite arrive_faces, lookup_fmap. destruct (c_faces c !! id) as [x|]; [|done]. cbn [fmap option_fmap option_map]. f_equal.
    destruct (face_arrive_rest (c_local c) (capture f) x) as (G1 & G2 & G3 & G4 & G5). destruct (face_arrive (c_local c) (capture f) x) as [r p o q g]. cbn [ef_remote ef_pers ef_open ef_q ef_got] in G1, G2, G3, G4, G5. subst r p o q g. f_equal.
    f_equal. destruct (ef_open x); cbn [andb]; [|rewrite decide_False by (intros [? _]; done); done].
    destruct (passes 0 (unicast_filter (c_local c) (ef_remote x)) (capture f)) eqn:B.
    + apply passes_unicast in B. rewrite decide_True; [done|]. rewrite F1, F2, F3 in B. tauto.
    + rewrite decide_False; [done|]. intros (_ & H1 & H2 & H3). assert (passes 0 (unicast_filter (c_local c) (ef_remote x)) (capture f) = true); [|congruence]. apply passes_unicast. rewrite F1, F2, F3. done.
Qed.

(** ** Making faces *)
(** A request for a peer that has a face is answered with that face, and changes nothing, whatever parameters it has. *)
Theorem C78_connect_known r p os gap ok c id : c_peers c !! r = Some id -> connect r p os gap ok c = (Made id, tell id c).
Proof. intros E. unfold connect, create_face. by rewrite E. Qed.
(** A request for another peer makes one face, with the given address and persistency and a number that no face had before, and calls back with it; the filter then excludes that peer too. *)
Theorem C78_connect_new r p c : c_peers c !! r = None -> c_listening c = c_capturing c ->
  exists l, (c_listening c = false -> l = c_filter c) /\ (c_listening c = true -> forall q, q ∈ l <-> q = r \/ is_Some (c_peers c !! q)) /\
  connect r p None [] true c = (Made (c_next c),
    Ec (c_local c) (c_debug c) (c_drain c) (c_listening c) (c_capturing c) (c_waiting c) l (if c_listening c && c_drain c then [] else c_q c)
      (<[r := c_next c]> (c_peers c)) (<[c_next c := EFace r p true [] []]> (c_faces c)) (c_next c + 1) (c_told c ++ [c_next c])).
Proof.
  intros Ep Hs. exists (if c_listening c then map fst (map_to_list (<[r := c_next c]> (c_peers c))) else c_filter c). split; [by intros ->|]. split.
  - intros -> q. rewrite keys_spec. destruct (decide (q = r)) as [->|]; [rewrite lookup_insert; split; [by left|by eexists]|]. rewrite lookup_insert_ne by done. split; [by right|by intros [?|?]].
  - unfold connect, create_face. rewrite Ep. cbn [foldl]. unfold update_filter. cbn [c_listening c_capturing set_next set_faces set_peers]. rewrite <-Hs. destruct (c_listening c) eqn:El; cbn [andb].
    + by destruct c; cbn in *; subst.
    + by destruct c; cbn in *; subst.
Qed.
(** If the face cannot be made, nothing changes; only a system error is reported to the caller, with code 504: the other exceptions are thrown. *)
Theorem C78_refusals r p x gap ok c : c_peers c !! r = None ->
  connect r p (Some x) gap ok c = (match x with XSystem => Refused 504 | _ => Throws x end, c).
Proof. intros E. unfold connect, create_face. rewrite E. by destruct x. Qed.
(** The first frame in the queue, from a peer that has no face: an on-demand face is made and announced, and then gets the packet, if there is one in the frame. *)
Theorem C78_incoming_new c f q s payload : c_q c = f :: q -> is_frame f (c_local c) s NDN_TYPE payload -> 46 <= length payload -> s <> c_local c ->
  c_peers c !! s = None -> c_listening c = c_capturing c ->
  exists c', read_channel None [] true c = Some c' /\
    c_faces c' = <[c_next c := EFace s OnDemand true [] (match from_buffer payload with Some (b, _) => [b] | None => [] end)]> (c_faces c) /\
    c_peers c' = <[s := c_next c]> (c_peers c) /\ c_told c' = c_told c ++ [c_next c] /\ c_next c' = (c_next c + 1)%N /\ c_q c' = (if c_listening c && c_drain c then [] else q) /\
    c_listening c' = c_listening c /\ c_waiting c' = c_waiting c.
Proof.
  intros Eq Hf Hl Hs Ep Hsame. destruct (fields _ _ _ _ _ Hf) as (F1 & F2 & F3 & F4 & F5). unfold read_channel. rewrite Eq.
  assert (check_header (c_debug c) (c_local c) (c_local c) f = Some s) as ->.
  { apply (C77_header _ _ _ _ _ _ _ _ _ Hf). split; [lia|]. done. }
  change HDR_LEN with 14. rewrite F4. unfold create_face. cbn [c_peers set_filter]. rewrite Ep. cbn [foldl]. unfold update_filter. cbn [c_listening c_capturing set_next set_faces set_peers set_filter]. rewrite <-Hsame.
  destruct (c_listening c) eqn:El; cbn [andb]; (eexists; split; [reflexivity|]); unfold deliver; destruct (from_buffer payload) as [[b r]|]; cbn; rewrite ?El; repeat split; try done; by rewrite alter_insert.
Qed.
(** ... from a peer that has one: that face gets the packet, and nothing else changes, even if the system could not make a face. *)
Theorem C78_incoming_known c f q s payload id x os gap ok : c_q c = f :: q -> is_frame f (c_local c) s NDN_TYPE payload -> 46 <= length payload -> s <> c_local c ->
  c_peers c !! s = Some id -> c_faces c !! id = Some x ->
  exists c', read_channel os gap ok c = Some c' /\
    c_faces c' = <[id := EFace (ef_remote x) (ef_pers x) (ef_open x) (ef_q x) (ef_got x ++ match from_buffer payload with Some (b, _) => [b] | None => [] end)]> (c_faces c) /\
    c_peers c' = c_peers c /\ c_told c' = c_told c /\ c_next c' = c_next c /\ c_q c' = q /\ c_filter c' = c_filter c /\ c_waiting c' = c_waiting c.
Proof.
  intros Eq Hf Hl Hs Ep Ex. destruct (fields _ _ _ _ _ Hf) as (F1 & F2 & F3 & F4 & F5). unfold read_channel. rewrite Eq.
  assert (check_header (c_debug c) (c_local c) (c_local c) f = Some s) as ->.
  { apply (C77_header _ _ _ _ _ _ _ _ _ Hf). split; [lia|]. done. }
  change HDR_LEN with 14. rewrite F4. unfold create_face. cbn [c_peers set_filter]. rewrite Ep. eexists. split; [reflexivity|]. unfold deliver. destruct (from_buffer payload) as [[b r]|]; cbn; (split; [|done]).
  - apply map_eq. intros j. destruct (decide (j = id)) as [->|]; [by rewrite lookup_alter, Ex, lookup_insert|by rewrite lookup_alter_ne, lookup_insert_ne].
  - rewrite app_nil_r. symmetry. apply insert_id. rewrite Ex. by destruct x.
Qed.
(** A frame that is too short, has another type or, where assertions are compiled, is not from another host to this one is taken from the queue and has no other effect. *)
Theorem C78_incoming_bad c f q os gap ok : c_q c = f :: q -> check_header (c_debug c) (c_local c) (c_local c) f = None -> read_channel os gap ok c = Some (set_filter (c_filter c) q c).
Proof. intros Eq Eh. unfold read_channel. by rewrite Eq, Eh. Qed.
(** The reading of a face: the first frame in its queue, with the same checks. *)
Theorem C78_face_reads c id x f q s payload : c_faces c !! id = Some x -> ef_q x = f :: q -> is_frame f (c_local c) s NDN_TYPE payload -> 46 <= length payload -> s <> c_local c ->
  c_faces (read_face id c) = <[id := EFace (ef_remote x) (ef_pers x) (ef_open x) q (ef_got x ++ match from_buffer payload with Some (b, _) => [b] | None => [] end)]> (c_faces c) /\
  c_peers (read_face id c) = c_peers c /\ c_q (read_face id c) = c_q c /\ c_told (read_face id c) = c_told c.
Proof.
  intros Ex Eq Hf Hl Hs. destruct (fields _ _ _ _ _ Hf) as (F1 & F2 & F3 & F4 & F5). unfold read_face. rewrite Ex, Eq.
  assert (check_header (c_debug c) (c_local c) (c_local c) f = Some s) as ->.
  { apply (C77_header _ _ _ _ _ _ _ _ _ Hf). split; [lia|]. done. }
  change HDR_LEN with 14. rewrite F4. unfold deliver. destruct (from_buffer payload) as [[b r]|]; cbn; (split; [|done]); [by rewrite alter_insert|by rewrite app_nil_r].
Qed.

(** ** Listening and closing *)
(** A channel that listens is not changed by a second request; one that does not starts to capture, with a filter that excludes the peers that have a face already. *)
Theorem C78_listen_again os ok c : c_listening c = true -> listen os ok c = (c, true).
Proof. intros E. unfold listen. by rewrite E. Qed.
Theorem C78_listen c : c_listening c = false -> exists l, (forall q, q ∈ l <-> is_Some (c_peers c !! q)) /\
  listen true true c = (Ec (c_local c) (c_debug c) (c_drain c) true true true l (if c_drain c then [] else c_q c) (c_peers c) (c_faces c) (c_next c) (c_told c), true).
Proof. intros E. unfold listen. rewrite E. eexists. split; [|reflexivity]. intros q. apply keys_spec. Qed.
(** A face that is being closed captures no more, what waited for it is gone, and other faces are as before. *)
Theorem C78_closing id c j : c_faces (closing id c) !! j =
  if decide (j = id) then (fun x => EFace (ef_remote x) (ef_pers x) false [] (ef_got x)) <$> c_faces c !! j else c_faces c !! j.
Proof. unfold closing. cbn. destruct (decide (j = id)) as [->|]; [by rewrite lookup_alter|by rewrite lookup_alter_ne]. Qed.
(** A face that is CLOSED leaves the table, and the channel's filter lets its peer through again. *)
Theorem C78_closed id x c : tidy c -> c_faces c !! id = Some x -> c_listening c = true -> c_capturing c = true ->
  exists c', closed id true c = Some c' /\ c_faces c' = delete id (c_faces c) /\ c_peers c' = delete (ef_remote x) (c_peers c) /\ ef_remote x ∉ c_filter c' /\
    (forall p, p <> ef_remote x -> p ∈ c_filter c' <-> is_Some (c_peers c !! p)) /\ c_waiting c' = c_waiting c /\ c_next c' = c_next c /\ c_told c' = c_told c /\ c_q c' = (if c_drain c then [] else c_q c).
Proof.
  intros Ht Ex Hl Hc. unfold closed, update_filter. rewrite Ex. cbn. rewrite Hl, Hc. cbn. eexists. split; [reflexivity|]. cbn. do 2 (split; [done|]). split; [|split; [|done]].
  - rewrite keys_spec, lookup_delete. by intros [? ?].
  - intros p Hp. rewrite keys_spec. by rewrite lookup_delete_ne.
Qed.

(** ** What does not hold *)
Definition elsewhere : mac := [2; 0; 0; 0; 0; 3]%N.
Definition packet2 : list N := [5; 1; 7]%N.
(** The packets of one peer are not passed on in the order in which they arrived. *)
Theorem C78_order_refuted :
  ~ (forall local debug fs c p, ec_quiet (ec_start local debug false) fs c -> p <> local -> c_q c = [] -> waits_at_face c p = [] -> passed_on c p = omap (carries local p) fs).
Proof.
  intros H. set (c0 := ec_start here true false). set (f1 := frame here there packet). set (f2 := frame here there packet2).
  set (c1 := arrive f1 c0). set (c2 := snd (connect there Persistent None [] true c1)). set (c3 := arrive f2 c2). set (c4 := read_face 0 c3).
  set (c5 := match read_channel None [] true c4 with Some c => c | None => c4 end).
  assert (Hq : ec_quiet c0 [capture f1; capture f2] c5).
  { apply (eq_snoc c0 [capture f1; capture f2] c4 (CRead None [] true)); [|done|vm_compute; reflexivity]. apply (eq_snoc c0 [capture f1; capture f2] c3 (CReadFace 0)); [|done|done].
    apply (eq_snoc c0 [capture f1] c2 (CArrive f2)); [|done|done]. apply (eq_snoc c0 [capture f1] c1 (CConnect there Persistent None [] true)); [|done|done].
    apply (eq_snoc c0 [] c0 (CArrive f1)); [|done|done]. constructor. }
  specialize (H here true _ c5 there Hq). assert (passed_on c5 there = [packet2; packet]) as Hp by (vm_compute; reflexivity).
  rewrite H in Hp; [|done|vm_compute; reflexivity|vm_compute; reflexivity]. vm_compute in Hp. done.
Qed.
(** If setting a filter discards what waits, a packet is lost whenever another peer's face is made first. *)
Theorem C78_drain_refuted :
  ~ (forall local debug drain fs c p, ec_quiet (ec_start local debug drain) fs c -> p <> local -> c_q c = [] -> waits_at_face c p = [] -> passed_on c p ≡ₚ omap (carries local p) fs).
Proof.
  intros H. set (c0 := ec_start here true true). set (f1 := frame here there packet). set (f2 := frame here elsewhere packet2).
  set (c1 := arrive f1 c0). set (c2 := arrive f2 c1).
  set (c3 := match read_channel None [] true c2 with Some c => c | None => c2 end).
  assert (Hq : ec_quiet c0 [capture f1; capture f2] c3).
  { apply (eq_snoc c0 [capture f1; capture f2] c2 (CRead None [] true)); [|done|vm_compute; reflexivity].
    apply (eq_snoc c0 [capture f1] c1 (CArrive f2)); [|done|done].
    apply (eq_snoc c0 [] c0 (CArrive f1)); [|done|done]. constructor. }
  specialize (H here true true _ c3 elsewhere Hq). assert (passed_on c3 elsewhere = []) as Hp by (vm_compute; reflexivity).
  rewrite Hp in H. assert (omap (carries here elsewhere) [capture f1; capture f2] = [packet2]) as Hx by (vm_compute; reflexivity). rewrite Hx in H.
  assert (A : [] ≡ₚ [packet2]) by (apply H; [done|vm_compute; reflexivity|vm_compute; reflexivity]). by apply Permutation_nil_cons in A.
Qed.
(** A packet that arrives while its sender's face is being made is passed on twice. *)
Theorem C78_twice_refuted :
  ~ (forall local p f b c, carried local p (capture f) b -> ec_run (ec_start local true false) [CConnect p Persistent None [f] true; CRead None [] true; CReadFace 0] = Some c -> p <> local ->
       passed_on c p = [b]).
Proof.
  intros H. set (f := frame here there packet).
  destruct (ec_run (ec_start here true false) [CConnect there Persistent None [f] true; CRead None [] true; CReadFace 0]) as [c|] eqn:E; [|vm_compute in E; done].
  assert (passed_on c there = [packet]) as Hp. { apply (H here there f packet c); [|done|done]. apply C78_carries. vm_compute. reflexivity. }
  assert (option_map (fun c => passed_on c there) (ec_run (ec_start here true false) [CConnect there Persistent None [f] true; CRead None [] true; CReadFace 0]) = Some [packet; packet]) as Hx by (vm_compute; reflexivity).
  rewrite E in Hx. cbn [option_map] in Hx. rewrite Hp in Hx. done.
Qed.
(** An exception of libpcap while a face is made for an incoming frame leaves the handler. *)
Theorem C78_escape_refuted : ~ (forall local debug drain es c e, ec_run (ec_start local debug drain) es = Some c -> is_Some (ec_step c e)).
Proof.
  intros H. set (f := frame here there packet).
  destruct (H here true false [CArrive f] (arrive f (ec_start here true false)) (CRead (Some XPcap) [] true)) as [c E]; [done|]. vm_compute in E. done.
Qed.
(** A request that fails can leave a face behind, which nobody is told of; the next request for the peer returns it. *)
Theorem C78_half_face_refuted : ~ (forall local es c r p gap ok x c', ec_run (ec_start local true false) es = Some c -> connect r p None gap ok c = (Throws x, c') -> c_peers c' !! r = None).
Proof.
  intros H. specialize (H here [] (ec_start here true false) there Persistent [] false XPcap).
  specialize (H (snd (connect there Persistent None [] false (ec_start here true false))) eq_refl eq_refl). vm_compute in H. done.
Qed.
(** A failure to listen is permanent: the channel says that it listens, and its first request fails. *)
Theorem C78_listen_failed_refuted : ~ (forall local c os ok, listen os ok (ec_new local true false) = (c, false) -> fst (listen true true c) <> c).
Proof. intros H. apply (H here (fst (listen false true (ec_new here true false))) false true); done. Qed.
(** After one error of the wait the channel never accepts a peer again, although it says that it listens. *)
Theorem C78_deaf_refuted :
  ~ (forall local es c p f b, ec_run (ec_start local true false) es = Some c -> c_listening c = true -> face_of c p = None -> carried local p (capture f) b -> p <> local ->
       exists os gap ok c', ec_run c [CArrive f; CRead os gap ok] = Some c' /\ is_Some (face_of c' p)).
Proof.
  intros H. set (f := frame here there packet). set (c := set_listening true true false (ec_start here true false)).
  destruct (H here [CError] c there f packet) as (os & gap & ok & c' & E & [x Ex]); [done|done|done| |done|].
  - apply C78_carries. vm_compute. reflexivity.
  - change (ec_run c [CArrive f; CRead os gap ok]) with (Some (arrive f c)) in E. injection E as <-. vm_compute in Ex. done.
Qed.
(** A frame that arrives while its peer's face is being closed is taken by nobody. *)
Theorem C78_window_refuted :
  ~ (forall local es c p f b, ec_run (ec_start local true false) es = Some c -> carried local p (capture f) b -> p <> local ->
       c_q (arrive f c) <> c_q c \/ waits_at_face (arrive f c) p <> waits_at_face c p).
Proof.
  intros H. set (f := frame here there packet). set (c := closing 0 (snd (connect there Persistent None [] true (ec_start here true false)))).
  destruct (H here [CConnect there Persistent None [] true; CClosing 0] c there f packet) as [Hx|Hx]; [done| |done| |].
  - apply C78_carries. vm_compute. reflexivity.
  - apply Hx. vm_compute. reflexivity.
  - apply Hx. vm_compute. reflexivity.
Qed.
(** A frame whose source is a group address makes a point-to-point face to the group. *)
Theorem C78_group_refuted :
  ~ (forall local es c id x, Forall (fun e => match e with CConnect r _ _ _ _ => is_group r = false | _ => True end) es -> ec_run (ec_start local true false) es = Some c ->
       c_faces c !! id = Some x -> is_group (ef_remote x) = false).
Proof.
  intros H. set (f := frame here group packet). set (c := match read_channel None [] true (arrive f (ec_start here true false)) with Some c => c | None => ec_start here true false end).
  assert (is_group group = false); [|done]. apply (H here [CArrive f; CRead None [] true] c 0%N (EFace group OnDemand true [] [packet])); [by repeat constructor|vm_compute; reflexivity|vm_compute; reflexivity].
Qed.
(** A frame that brings no packet makes a face all the same. *)
Theorem C78_junk_refuted :
  ~ (forall local p f c, ec_run (ec_start local true false) [CArrive f; CRead None [] true] = Some c -> p <> local -> is_Some (face_of c p) -> exists b, carried local p (capture f) b).
Proof.
  intros H. set (f := frame here there [255]%N). set (c := match read_channel None [] true (arrive f (ec_start here true false)) with Some c => c | None => ec_start here true false end).
  destruct (H here there f c) as [b Hb]; [vm_compute; reflexivity|done|vm_compute; by eexists|]. apply C78_carries in Hb. vm_compute in Hb. done.
Qed.

(** ** Cases *)
(** two peers, one that connects first and one that comes in; a face is closed and its peer comes back *)
Example C78_case_life :
  option_map (fun c => (passed_on c there, passed_on c elsewhere, c_told c, c_peers c !! there, c_peers c !! elsewhere))
    (ec_run (ec_start here true false)
      [CConnect elsewhere Persistent None [] true; CArrive (frame here there packet); CArrive (frame here elsewhere packet2); CRead None [] true; CReadFace 0; CArrive (frame here there packet2); CReadFace 1;
       CClosing 0; CClosed 0 true; CArrive (frame here elsewhere packet); CRead None [] true])
  = Some ([packet; packet2], [packet], [0; 1; 2]%N, Some 1%N, Some 2%N).
Proof. vm_compute. reflexivity. Qed.
Example C78_case_carried : carried here there (capture (frame here there packet)) packet.
Proof. apply C78_carries. vm_compute. reflexivity. Qed.
(** the hypotheses of the theorems about histories are met *)
Example C78_case_quiet : exists c, ec_quiet (ec_start here true false) [capture (frame here there packet)] c /\ passed_on c there = [packet] /\ c_q c = [].
Proof.
  set (c0 := ec_start here true false). set (f1 := frame here there packet). set (c1 := arrive f1 c0). set (c2 := match read_channel None [] true c1 with Some c => c | None => c1 end).
  exists c2. split; [|split; vm_compute; reflexivity]. apply (eq_snoc c0 [capture f1] c1 (CRead None [] true)); [|done|vm_compute; reflexivity]. apply (eq_snoc c0 [] c0 (CArrive f1)); [constructor|done|done].
Qed.
Example C78_case_smooth : exists c, ec_smooth (ec_new here true true) c /\ c_listening c = true /\ c_filter c = [there].
Proof.
  set (c1 := fst (listen true true (ec_new here true true))). exists (snd (connect there Persistent None [] true c1)). split; [|split; vm_compute; reflexivity].
  apply (es_snoc _ c1 (CConnect there Persistent None [] true)); [|done|done]. apply (es_snoc _ (ec_new here true true) (CListen true true)); [constructor|done|done].
Qed.
Print Assumptions C78_carries.
Print Assumptions C78_delivery.
Print Assumptions C78_at_most_once.
Print Assumptions C78_table.
Print Assumptions C78_one_face.
Print Assumptions C78_filter.
Print Assumptions C78_arrive.
Print Assumptions C78_connect_known.
Print Assumptions C78_connect_new.
Print Assumptions C78_refusals.
Print Assumptions C78_incoming_new.
Print Assumptions C78_incoming_known.
Print Assumptions C78_incoming_bad.
Print Assumptions C78_face_reads.
Print Assumptions C78_listen_again.
Print Assumptions C78_listen.
Print Assumptions C78_closing.
Print Assumptions C78_closed.
Print Assumptions C78_order_refuted.
Print Assumptions C78_drain_refuted.
Print Assumptions C78_twice_refuted.
Print Assumptions C78_escape_refuted.
Print Assumptions C78_half_face_refuted.
Print Assumptions C78_listen_failed_refuted.
Print Assumptions C78_deaf_refuted.
Print Assumptions C78_window_refuted.
Print Assumptions C78_group_refuted.
Print Assumptions C78_junk_refuted.
