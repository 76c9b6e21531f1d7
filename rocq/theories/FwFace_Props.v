(** Properties C33, C34, C61: faces that come and go, forwarding hints *)
From stdpp Require Import gmap.
From Verif Require Import Lib Name_Model Name_Proof Packet_Model Nt_Model Nt_Spec Tree_Model Tree_Proof Tab_Model Tab_Spec Tab_At Tab_Fib Tab_Pit Tab_Clean Tab_Run Tab_Main Fw_Model Fw_Spec Fw_Inv Fw_Case Fw_Case2 Fw_Case3 Fw_Hist Fw_Acc Fw_Step Fw_Out Fw_Main Fw_Data Fw_Ex Fib_Props FwData_Props.
From Verif Require Cs_Model Cs_Spec Dnl_Model.

(** the cost of face [f] as nexthop for the prefix [n], if it is one *)
Definition nexthop_cost (s : fw) (n : name) (f : N) : option N := fib_at (fw_t s) n ≫= fun fe => cost_of f (fe_nexthops fe).
(** the nexthops for the name [n] are [l]: those of the longest prefix that has any *)
Definition route_for (s : fw) (n : name) (l : list nexthop) : Prop :=
  exists p fe, longest_defined (fun m => fib_at (fw_t s) m) n p /\ fib_at (fw_t s) p = Some fe /\ fe_nexthops fe = l /\ l <> [].
Definition no_route (s : fw) (n : name) : Prop := forall p, p `prefix_of` n -> fib_at (fw_t s) p = None.
(** a delegation of the forwarding hint is a prefix of the name of a configured region *)
Definition in_region (s : fw) (hint : list name) : Prop := exists d r, d ∈ hint /\ r ∈ fw_regions s /\ d `prefix_of` r.
Lemma in_region_spec s hint : in_producer_region hint (fw_regions s) = true <-> in_region s hint.
Proof.
  unfold in_producer_region, in_region. rewrite existsb_exists. split.
  - intros (r & Hr%elem_of_list_In & (d & Hd%elem_of_list_In & Hp%name_prefixb_prefix)%existsb_exists). by exists d, r.
  - intros (d & r & Hd & Hr & Hp). exists r. split; [by apply elem_of_list_In|]. apply existsb_exists. exists d. split; [by apply elem_of_list_In|by apply name_prefixb_prefix].
Qed.

Lemma inc_last x : (255 < inc64 x -> x < 2 ^ 64 -> x < inc64 x)%N.
Proof.
  intros Hgt Hx. unfold inc64, U64 in *. destruct (N.eq_dec x (2 ^ 64 - 1)) as [E|E]; [rewrite E in Hgt; by vm_compute in Hgt|]. rewrite N.mod_small by lia. lia.
Qed.

Section props.
  Variable sort_nexthops : list nexthop -> list nexthop.
  Variable create_strategy : name -> create_result.
  Variable same_type : name -> name -> bool.
  Variable make_entry : name -> N -> Dnl_Model.fingerprint.
  Variable rand : nat -> nat.
  Variable face_order : list N -> list N.
  Variable strategies : name -> strategy.
  Notation step := (fw_step sort_nexthops create_strategy same_type make_entry rand face_order strategies).
  Notation reachable := (fw_reachable sort_nexthops create_strategy same_type make_entry rand face_order strategies).
  Notation later := (fw_later sort_nexthops create_strategy same_type make_entry rand face_order strategies).
  Hypothesis W : world_ok sort_nexthops same_type face_order.
  Notation inv_of R := (proj1 (reachable_inv _ _ _ _ _ _ _ W _ R)).

  Lemma later_reachable s s' : reachable s -> later s s' -> reachable s'.
  Proof. intros R H. induction H as [|s1 ev s2 H1 IH Ho Hs]; [done|]. by eapply fw_reach_step. Qed.
  (** identifiers only grow *)
  Lemma step_ids s ev s' : reachable s -> ev_ok s ev -> step s ev = Some s' -> (fw_last s <= fw_last s')%N /\
    forall f, (255 < f <= fw_last s)%N -> fw_faces s !! f = None -> fw_faces s' !! f = None.
  Proof.
    intros R Ho H. assert (Hd : face_event ev \/ ~ face_event ev) by (destruct ev; ((left; done) || (right; by intros []))). destruct Hd as [Hd|Hd].
    - destruct ev; try done.
      + apply add_shape in H as (id & Hid & Hgt & Hn & ->). simpl. pose proof (iv_last _ (inv_of R)). assert (fw_last s < id)%N.
        { subst id. apply inc_last; [done|lia]. }
        split; [lia|]. intros f Hf Hnf. rewrite lookup_insert_ne; [done|lia].
      + apply reserved_shape in H as (Hid & Hn & ->). simpl. split; [lia|]. intros f0 Hf Hnf. rewrite lookup_insert_ne; [done|lia].
      + apply remove_shape in H as [H1 H2]. rewrite H1, H2. split; [lia|]. intros f0 Hf Hnf. by rewrite lookup_delete_None; right.
    - apply event_frozen in H as [H1 H2]; [|done]. rewrite H1, H2. split; [lia|done].
  Qed.
  Lemma later_ids s s' : reachable s -> later s s' -> (fw_last s <= fw_last s')%N /\ forall f, (255 < f <= fw_last s)%N -> fw_faces s !! f = None -> fw_faces s' !! f = None.
  Proof.
    intros R H. induction H as [|s1 ev s2 H1 IH Ho Hs]; [split; [lia|done]|]. pose proof (later_reachable _ _ R H1) as R1. destruct IH as [A1 A2]. destruct (step_ids _ _ _ R1 Ho Hs) as [B1 B2].
    split; [lia|]. intros f Hf Hn. apply B2; [lia|by apply A2].
  Qed.

  (** C33: after a face is removed nothing refers to it; what refers to other faces is as before *)
  Theorem C33_removed s f s' : reachable s -> step s (EvFaceRemove f) = Some s' ->
    ~ face_exists s' f /\ (forall g, g <> f -> fw_faces s' !! g = fw_faces s !! g) /\
    (forall n g, nexthop_cost s' n g = if decide (g = f) then None else nexthop_cost s n g) /\
    (forall k g r, in_record_of s' k g r <-> in_record_of s k g r /\ g <> f) /\
    (forall k g r, out_record_of s' k g r <-> out_record_of s k g r /\ g <> f) /\
    (forall k, is_Some (pit_at (fw_t s') k) <-> is_Some (pit_at (fw_t s) k)) /\ fw_log s' = fw_log s.
  Proof.
    intros R H. pose proof (inv_of R) as I. destruct (remove_shape _ _ _ _ _ _ _ _ _ _ H) as [Hf _]. apply step_event in H. simpl in H.
    eapply face_remove_case in H as [Hu _]; [|exact create_strategy|exact W|exact I]. split; [unfold face_exists; rewrite Hf, lookup_delete; by intros [? ?]|].
    split; [intros g Hg; by rewrite Hf, lookup_delete_ne|]. split; [|split; [|split; [|split]]].
    - intros n g. unfold nexthop_cost. rewrite (uf_fib _ _ _ Hu). destruct (fib_at (fw_t s) n) as [fe|] eqn:E; simpl; [|by destruct (decide _)].
      destruct (proj1 (ti_fib _ (iv_tab _ I)) n fe E) as [_ Hok]. pose proof (remove_nexthop_ok f _ Hok) as Hr. unfold fib_without.
      destruct (remove_nexthop f (fe_nexthops fe)) as [l|]; simpl.
      + destruct Hr as (_ & _ & Hc & _). rewrite <- Hc. by destruct l.
      + by case_decide as Hg; [subst g|].
    - intros k g r. split.
      + intros (e' & He' & Hr & Hrf). rewrite (uf_pits _ _ _ Hu) in He'. destruct (pit_at (fw_t s) k) as [e|] eqn:E; [|done]. injection He' as <-. simpl in Hr.
        destruct (entry_ok _ _ _ I E) as [[N1 _ _ _] _]. destruct (delete_in_ok f _ N1) as (N2 & Hd & He). split; [exists e; split; [done|]; split; [by apply He|done]|].
        intros ->. pose proof (elem_find_in _ _ N2 Hr) as Hx. rewrite Hrf, Hd, decide_True in Hx by done. done.
      + intros [(e & E & Hr & Hrf) Hg]. exists (delete_in_out f e). rewrite (uf_pits _ _ _ Hu), E. split; [done|]. simpl.
        destruct (entry_ok _ _ _ I E) as [[N1 _ _ _] _]. destruct (delete_in_ok f _ N1) as (_ & Hd & _). specialize (Hd g). rewrite decide_False in Hd by done.
        pose proof (elem_find_in _ _ N1 Hr) as Hx. rewrite Hrf in Hx. rewrite Hx in Hd. apply find_in_Some in Hd as [Hd _]. done.
    - intros k g r. split.
      + intros (e' & He' & Hr & Hrf). rewrite (uf_pits _ _ _ Hu) in He'. destruct (pit_at (fw_t s) k) as [e|] eqn:E; [|done]. injection He' as <-. simpl in Hr.
        destruct (entry_ok _ _ _ I E) as [[_ N1 _ _] _]. destruct (delete_out_ok f _ N1) as (N2 & Hd & He). split; [exists e; split; [done|]; split; [by apply He|done]|].
        intros ->. pose proof (elem_find_out _ _ N2 Hr) as Hx. rewrite Hrf, Hd, decide_True in Hx by done. done.
      + intros [(e & E & Hr & Hrf) Hg]. exists (delete_in_out f e). rewrite (uf_pits _ _ _ Hu), E. split; [done|]. simpl.
        destruct (entry_ok _ _ _ I E) as [[_ N1 _ _] _]. destruct (delete_out_ok f _ N1) as (_ & Hd & _). specialize (Hd g). rewrite decide_False in Hd by done.
        pose proof (elem_find_out _ _ N1 Hr) as Hx. rewrite Hrf in Hx. rewrite Hx in Hd. apply find_out_Some in Hd as [Hd _]. done.
    - intros k. rewrite (uf_pits _ _ _ Hu). by rewrite fmap_is_Some.
    - destruct (uf_eq _ _ _ Hu) as [T ->]. done.
  Qed.
  (** nothing ever refers to a face that does not exist *)
  Theorem C33_dangling s : reachable s ->
    (forall n f c, nexthop_cost s n f = Some c -> face_exists s f) /\
    (forall k f r, in_record_of s k f r -> face_exists s f) /\ (forall k f r, out_record_of s k f r -> face_exists s f).
  Proof.
    intros R. pose proof (inv_of R) as I. split; [|split].
    - intros n f c. unfold nexthop_cost. destruct (fib_at (fw_t s) n) as [fe|] eqn:E; [|done]. simpl. unfold cost_of. destruct (List.find _ _) as [h|] eqn:Eh; [|done]. intros _.
      apply find_some in Eh as [Hh%elem_of_list_In Hf%N.eqb_eq]. subst f. by eapply (iv_fib _ I n fe).
    - intros k f r (e & He & Hr & <-). by eapply (iv_pit _ I k e He).
    - intros k f r (e & He & Hr & <-). by eapply (iv_pit _ I k e He).
  Qed.
  (** the identifier is never assigned again, unless it is a reserved one *)
  Theorem C33_never_again s f s' s2 : reachable s -> ev_ok s (EvFaceRemove f) -> step s (EvFaceRemove f) = Some s' -> (255 < f)%N -> later s' s2 -> ~ face_exists s2 f.
  Proof.
    intros R Ho H Hf Hl. pose proof (iv_ids _ (inv_of R) f Ho) as Hid. destruct (remove_shape _ _ _ _ _ _ _ _ _ _ H) as [H1 H2].
    assert (R' : reachable s') by (by eapply fw_reach_step). destruct (later_ids _ _ R' Hl) as [_ Hx]. unfold face_exists. rewrite Hx; [by intros [? ?]|lia|]. by rewrite H1, lookup_delete.
  Qed.

  (** C34: each face added gets an identifier above the reserved ones that no face has had *)
  Theorem C34_fresh s0 s fc s' : reachable s0 -> later s0 s -> step s (EvFaceAdd fc) = Some s' ->
    exists id, (255 < id)%N /\ ~ face_exists s0 id /\ fw_faces s' = <[id := fc]> (fw_faces s) /\ same_but_log (set_faces (fw_faces s') (fw_last s') s) s' /\ fw_log s' = fw_log s.
  Proof.
    intros R Hl H. pose proof (later_reachable _ _ R Hl) as R1. destruct (later_ids _ _ R Hl) as [Hle _]. pose proof (iv_ids _ (inv_of R)) as Hids. pose proof (iv_last _ (inv_of R1)) as Hlast.
    pose proof (add_shape _ _ _ _ _ _ _ _ _ _ H) as (id & Hid & Hgt & Hn & ->). exists id. split; [done|]. split; [|done]. intros Hx%Hids.
    subst id. pose proof (inc_last _ Hgt (proj2 Hlast)). lia.
  Qed.
  (** reserved identifiers are given on request only *)
  Theorem C34_reserved s fc id s' : step s (EvFaceAddReserved fc id) = Some s' -> (id <= 255)%N /\ ~ face_exists s id /\ fw_faces s' = <[id := fc]> (fw_faces s).
  Proof. intros H. apply reserved_shape in H as (H1 & H2 & ->). split; [done|]. split; [unfold face_exists; rewrite H2; by intros [? ?]|done]. Qed.
  (** a face keeps its identifier, and appears only in one of these two ways *)
  Theorem C34_only s ev s' f : step s ev = Some s' -> fw_faces s' !! f <> fw_faces s !! f ->
    (exists fc, ev = EvFaceAdd fc /\ fw_faces s !! f = None /\ fw_faces s' !! f = Some fc) \/
    (exists fc, ev = EvFaceAddReserved fc f /\ fw_faces s !! f = None /\ fw_faces s' !! f = Some fc) \/ (ev = EvFaceRemove f /\ fw_faces s' !! f = None).
  Proof.
    intros H Hne. assert (Hd : face_event ev \/ ~ face_event ev) by (destruct ev; ((left; done) || (right; by intros []))). destruct Hd as [Hd|Hd].
    - destruct ev; try done.
      + apply add_shape in H as (id & _ & _ & Hn & ->). simpl in *. destruct (decide (id = f)) as [->|Hi]; [|by rewrite lookup_insert_ne in Hne]. left. exists fc. by rewrite lookup_insert.
      + apply reserved_shape in H as (_ & Hn & ->). simpl in *. destruct (decide (id = f)) as [->|Hi]; [|by rewrite lookup_insert_ne in Hne]. right; left. exists fc. by rewrite lookup_insert.
      + apply remove_shape in H as [H1 _]. rewrite H1 in *. destruct (decide (f0 = f)) as [->|Hi]; [|by rewrite lookup_delete_ne in Hne]. right; right. by rewrite lookup_delete.
    - apply event_frozen in H as [H1 _]; [|done]. congruence.
  Qed.

  (** C61: which nexthops a strategy is given: without forwarding hint those for the name; with
      one, those for the first delegation that has any *)
  Lemma lpm_route s n : Inv s -> route_for s n (fe_nexthops (fib_lpm n (fw_t s))) \/ (no_route s n /\ fib_lpm n (fw_t s) = FibEntry [] []).
  Proof.
    intros I. destruct (fib_lpm_ok n (fw_t s) (ti_tree _ (iv_tab _ I))) as [(p & Hp & Hf)|[Hno Hx]]; [left|by right].
    exists p, (fib_lpm n (fw_t s)). split; [done|]. split; [done|]. split; [done|]. by apply (iv_fib _ I p).
  Qed.
  Theorem C61_nexthops s e fe : reachable s -> lookup_fib s e = Some fe ->
    let l := fe_nexthops fe in
    match i_hint (pe_interest e) with
    | [] => route_for s (i_name (pe_interest e)) l \/ (no_route s (i_name (pe_interest e)) /\ l = [])
    | hint => ~ in_region s hint /\
        ((exists h1 d h2, hint = h1 ++ d :: h2 /\ Forall (no_route s) h1 /\ route_for s d l) \/ (Forall (no_route s) hint /\ l = []))
    end.
  Proof.
    intros R. pose proof (inv_of R) as I. unfold lookup_fib. cbv zeta. destruct (i_hint (pe_interest e)) as [|d0 h0] eqn:Eh.
    - intros [= <-]. destruct (lpm_route s (i_name (pe_interest e)) I) as [?|[? ->]]; [by left|by right].
    - destruct (in_producer_region (d0 :: h0) (fw_regions s)) eqn:Er; [done|]. intros H. split; [intros Hx%in_region_spec; congruence|].
      assert (Hg : forall hint last, (forall fe, last = Some fe -> fe_nexthops fe = []) -> lookup_fib_hint (fw_t s) hint last = Some fe ->
        (exists h1 d h2, hint = h1 ++ d :: h2 /\ Forall (no_route s) h1 /\ route_for s d (fe_nexthops fe)) \/ (Forall (no_route s) hint /\ fe_nexthops fe = [])).
      { clear H Er Eh d0 h0. induction hint as [|d hint IH]; intros last Hlast H; simpl in H.
        - right. split; [constructor|]. destruct last as [fe'|]; [|done]. destruct (fe_prefix fe'); [|done]. injection H as <-. by apply Hlast.
        - destruct (lpm_route s d I) as [Hr|[Hn E]].
          + destruct (fe_nexthops (fib_lpm d (fw_t s))) as [|h l] eqn:El; [destruct Hr as (? & ? & _ & _ & _ & Hx); done|]. injection H as <-. left. exists [], d, hint. rewrite El. split; [done|]. split; [constructor|done].
          + rewrite E in H. simpl in H. apply IH in H as [(h1 & d1 & h2 & -> & Hf & Hr)|[Hf He]]; [| |by intros fe0 [= <-]].
            * left. exists (d :: h1), d1, h2. split; [done|]. split; [by constructor|done].
            * right. split; [by constructor|done]. }
      apply (Hg _ None); [done|exact H].
  Qed.
  (** the lookup fails on the assertion that the producer region has not been reached iff it has *)
  Theorem C61_defined s e : reachable s -> lookup_fib s e = None <-> in_region s (i_hint (pe_interest e)).
  Proof.
    intros R. pose proof (inv_of R) as I. unfold lookup_fib. destruct (i_hint (pe_interest e)) as [|d0 h0] eqn:Eh.
    - split; [done|]. intros (d & r & Hd & _). by apply elem_of_nil in Hd.
    - rewrite <- in_region_spec. destruct (in_producer_region (d0 :: h0) (fw_regions s)) eqn:Er; [done|]. split; [|done]. intros H. exfalso.
      assert (Hg : forall hint last, (last = None -> hint <> []) -> (forall fe, last = Some fe -> fe = FibEntry [] []) -> lookup_fib_hint (fw_t s) hint last <> None).
      { clear -I. intros hint. induction hint as [|d hint IH]; intros last Hn Hl; simpl.
        - destruct last as [fe|]; [|by destruct Hn]. by rewrite (Hl fe).
        - destruct (lpm_route s d I) as [Hr|[_ E]].
          + destruct (fe_nexthops (fib_lpm d (fw_t s))); [destruct Hr as (? & ? & _ & _ & _ & Hx); done|done].
          + rewrite E. simpl. apply IH; [done|]. by intros fe [= <-]. }
      by apply (Hg (d0 :: h0) None).
  Qed.
  (** the hint of an Interest that arrives is ignored iff the Interest has reached the region *)
  Theorem C61_stored s f i s' r : reachable s -> ev_ok s (EvInterest f i) -> step s (EvInterest f i) = Some s' ->
    takes_interest make_entry s (EvInterest f i) (key_of i) f i -> in_record_of s' (key_of i) f r ->
    (in_region s (i_hint i) -> i_hint (ir_interest r) = []) /\ (~ in_region s (i_hint i) -> i_hint (ir_interest r) = i_hint i).
  Proof.
    intros R Ho H (_ & _ & Hhop & Hsc & Hdn & Hnl) (e' & He' & Hr & Hrf). assert (R' : reachable s') by (by eapply fw_reach_step). apply step_event in H. pose proof (inv_of R) as I. simpl in H. pose proof Ho as (_ & Hlife & _).
    eapply interest_cases in H as (fc & Hf & Hc); [|done|done].
    destruct Hc as [Hz _|_ Hloc Hn%is_localhost_spec _|Hz _ Hp']; [done|destruct (Hsc Hn) as (fc' & ? & ?); congruence|].
    destruct Hp' as [Hd _|i2 e new s1 _ Hi2 Hins Hp']; [congruence|].
    assert (Hk2 : key_of i2 = key_of i) by (subst i2; by apply one_hop_i2). destruct (i2_kept (fw_regions s) i) as (_ & _ & Hno2 & Hl2). rewrite <- Hi2 in Hno2, Hl2.
    assert (Hh2 : (in_region s (i_hint i) -> i_hint i2 = []) /\ (~ in_region s (i_hint i) -> i_hint i2 = i_hint i)).
    { subst i2. unfold strip_hint. assert (Hd : i_hint (dec_hop i) = i_hint i) by (unfold dec_hop; by destruct (i_hop i)). rewrite Hd. destruct (i_hint i) as [|d0 h0] eqn:Eh.
      - split; [|done]. intros (d & r0 & Hx & _). by apply elem_of_nil in Hx.
      - destruct (in_producer_region (d0 :: h0) (fw_regions s)) eqn:Er; [split; [done|intros Hx; by apply in_region_spec in Er]|]. split; [|by rewrite Hd]. intros Hx%in_region_spec. congruence. }
    pose proof (ins_e _ _ _ _ _ Hins) as He. rewrite Hk2 in He. simpl in He. change (fw_t (got (Rx_interest f i) inc_in_interests s)) with (fw_t s) in He.
    destruct Hp' as [Hd _|c d _ Hin _ _ [(sc & Hw & Hs') _]|s2 e3 s3 _ _ I2 Hm Hfw].
    - exfalso. apply Hnl. destruct (pit_at (fw_t s) (key_of i)) as [e1|] eqn:E1; simpl in He; subst e.
      + rewrite Hno2 in Hd. by apply (is_dup_spec s f fc i e1 I Hf E1).
      + by destruct (is_dup_new _ _ _ _ Hd).
    - assert (Ht : fw_t s' = fw_t sc) by (subst s'; by destruct (_ || _)). rewrite Ht, <- Hk2, (proj2 (wrote_at _ _ _ _ _ Hw)) in He'. injection He' as <-. simpl in Hr. rewrite Hin in Hr. by apply elem_of_nil in Hr.
    - pose proof (ms_wrote _ _ _ _ _ _ _ _ _ Hm) as Hw. eapply forwards_satoms in Hfw; [|exact W|apply Hw|rewrite (proj1 (proj2 (proj2 (proj2 (i3_kept s2 i2))))); lia].
      eapply satoms_entry in Hfw as (_ & _ & Hx); [|apply Hw]. destruct (Hx _ (proj2 (wrote_at _ _ _ _ _ Hw))) as (e4 & He4 & Hth). rewrite Hk2, He' in He4. injection He4 as <-.
      destruct (entry_ok _ _ _ (inv_of R') He') as [[N1 _ _ _] _]. pose proof (elem_find_in _ _ N1 Hr) as Hy. rewrite Hrf in Hy. destruct (th_in _ _ Hth _ _ Hy) as (r0 & Hr0 & [_ ->]).
      rewrite (ms_in _ _ _ _ _ _ _ _ _ Hm) in Hr0. destruct (wr_entry _ _ _ _ _ Hw) as [E1 _]. change (pit_at (fw_t s2) (key_of i2) = Some e) in E1. destruct (entry_ok _ _ _ I2 E1) as [[N3 _ _ _] _].
      destruct (insert_in_ok f (with_default_hop s2 i2) (now (fw_t s2)) (pe_in e) N3) as (_ & Hfi & _). rewrite Hfi, decide_True in Hr0 by done. injection Hr0 as <-. simpl.
      assert (Hh3 : i_hint (with_default_hop s2 i2) = i_hint i2) by (unfold with_default_hop; by destruct (add_hop _ _)). by rewrite Hh3.
  Qed.
End props.

(** ** Cases that meet the hypotheses *)
Global Instance link_eq_dec : EqDecision link.
Proof. solve_decision. Defined.
Global Instance face_eq_dec : EqDecision face.
Proof. solve_decision. Defined.
(** face 258 goes away while it is nexthop and upstream *)
Definition ex_gone : list event := ex_faces ++ [EvFibAdd [gc 1] 258 7; EvFibAdd [gc 1] 257 9; EvFibAdd [gc 2] 258 0; EvInterest 256 (ex_interest ex_n 1)].
Definition faces_of (s : fw) : list N * list N :=
  match pit_at (fw_t s) (key_of (ex_interest ex_n 1)) with Some e => (map (fun r => fr_face (ir_rec r)) (pe_in e), map (fun r => fr_face (or_rec r)) (pe_out e)) | None => ([], []) end.
Example C33_ex :
  ex_holds ex_gone (fun s => bool_decide (faces_of s = ([256], [257; 258])%N) && bool_decide (nexthop_cost s [gc 1] 258 = Some 7%N)) = true /\
  ex_holds (ex_gone ++ [EvFaceRemove 258; EvFaceAdd (Face false LINK_P2P)])
    (fun s => bool_decide (faces_of s = ([256], [257])%N) && bool_decide (nexthop_cost s [gc 1] 258 = None) && bool_decide (nexthop_cost s [gc 1] 257 = Some 9%N) &&
              bool_decide (fw_faces s !! 258%N = None) && bool_decide (fw_faces s !! 260%N <> None) && bool_decide (fib_at (fw_t s) [gc 2] = None)) = true.
Proof. by vm_compute. Qed.
Example C34_ex :
  ex_holds [EvFaceAddReserved (Face true LINK_P2P) 1; EvFaceAddReserved (Face true LINK_P2P) 254; EvFaceAdd (Face false LINK_P2P)]
    (fun s => bool_decide (fw_faces s !! 1%N <> None) && bool_decide (fw_faces s !! 254%N <> None) && bool_decide (fw_faces s !! 256%N = Some (Face false LINK_P2P))) = true /\
  ex_holds [EvFaceAddReserved (Face true LINK_P2P) 256] (fun _ => true) = false.
Proof. by vm_compute. Qed.
(** two delegations, the second has a route; in the region of the second the hint is dropped *)
Definition hinted (h : list name) (i : interest) : interest := Interest (i_name i) (i_cbp i) (i_mbf i) (i_nonce i) (i_lifetime i) (i_hop i) h (i_nexthop i) (i_token i) (i_nondisc i).
Definition ex_hint : list name := [[gc 5]; [gc 6; gc 7]].
Definition ex_hinted : list event := [EvInterest 257 (hinted ex_hint (ex_interest ex_n 1))].
Definition sent_on (l : list io) : list N := omap (fun x => match x with Tx_interest g _ => Some g | _ => None end) l.
Example C61_ex :
  ex_holds (ex_faces ++ [EvFibAdd [gc 1] 258 0; EvFibAdd [gc 6] 259 0; EvFibAdd [gc 6; gc 7] 256 0] ++ ex_hinted) (fun s => bool_decide (sent_on (fw_log s) = [256%N])) = true /\
  ex_holds (ex_faces ++ [EvFibAdd [gc 1] 258 0; EvFibAdd [] 259 0; EvFibAdd [gc 6; gc 7] 256 0] ++ ex_hinted) (fun s => bool_decide (sent_on (fw_log s) = [259%N])) = true /\
  ex_holds (ex_faces ++ [EvFibAdd [gc 1] 258 0; EvRegions [[gc 6; gc 7; gc 8]]; EvFibAdd [gc 6] 259 0] ++ ex_hinted) (fun s => bool_decide (sent_on (fw_log s) = [258%N])) = true /\
  ex_holds (ex_faces ++ [EvFibAdd [gc 1] 258 0; EvRegions [[gc 6]]] ++ ex_hinted) (fun s => bool_decide (sent_on (fw_log s) = [])) = true.
Proof. by vm_compute. Qed.
(** When the configured regions change while an Interest is pending, its forwarding hint may lie
    in a region after all; a strategy that then looks up its nexthops (a retransmission, a
    Nack) runs into the assertion. *)
Theorem C61_region_change_refuted : exists s k e, ex_reachable s /\ pit_at (fw_t s) k = Some e /\ lookup_fib s e = None.
Proof.
  destruct (ex_holds_ok (ex_faces ++ [EvFibAdd [gc 6] 259 0] ++ ex_hinted ++ [EvRegions [[gc 5; gc 8]]])
    (fun s => match pit_at (fw_t s) (key_of (ex_interest ex_n 1)) with Some e => match lookup_fib s e with None => true | Some _ => false end | None => false end)) as (s & _ & R & H); [by vm_compute|].
  exists s, (key_of (ex_interest ex_n 1)). destruct (pit_at _ _) as [e|]; [|done]. exists e. split; [done|]. split; [done|]. by destruct (lookup_fib s e).
Qed.
Print Assumptions C33_removed.
Print Assumptions C33_dangling.
Print Assumptions C33_never_again.
Print Assumptions C34_fresh.
Print Assumptions C34_reserved.
Print Assumptions C34_only.
Print Assumptions C61_nexthops.
Print Assumptions C61_defined.
Print Assumptions C61_stored.
Print Assumptions C61_region_change_refuted.
