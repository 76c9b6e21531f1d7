(** From the arrival of an Interest to the strategy's trigger. *)
From stdpp Require Import gmap.
From Verif Require Import Lib Name_Model Name_Proof Packet_Model Nt_Model Nt_Spec Tree_Model Tree_Proof Tab_Model Tab_Spec Tab_At Tab_Fib Tab_Pit Tab_Sc Tab_Run Tab_Main Fw_Model Fw_Spec Fw_Inv Fw_Case Fw_Case2 Fw_Case3 Fw_Hist Fw_Acc Fw_Step Fw_Out Fw_Main Fw_Data Fw_Ex FwFace_Props St_Model St_Retx St_Spec St_Dec St_Run.
From Verif Require Cs_Model Cs_Spec Cs_Main Dnl_Model.

(** in state [s3] the trigger runs, on PIT entry [e], with Interest [i3] *)
Record ready (s : fw) (f : N) (i i3 : interest) (e : pit_entry) (s3 : fw) : Prop := {
  rd_inv : Inv s3;
  rd_faces : fw_faces s3 = fw_faces s;
  rd_fib : forall n, fib_at (fw_t s3) n = fib_at (fw_t s) n;
  rd_regions : fw_regions s3 = fw_regions s;
  rd_now : now (fw_t s3) = now (fw_t s);
  rd_log : fw_log s3 = Rx_interest f i :: fw_log s;
  rd_at : pit_at (fw_t s3) (key_of i) = Some e;
  rd_out : pe_out e = outs_of s (key_of i);
  rd_info : pe_info e = info_of s (key_of i);
  rd_hint : hint_for s i (i_hint (pe_interest e));
  rd_name : i_name (pe_interest e) = i_name i;
  rd_hop : one_hop i i3;
  rd_nonce : i_nonce i3 = i_nonce i;
  rd_token : i_token i3 = i_token i;
  rd_life : i_lifetime i3 = i_lifetime i;
  rd_in : exists r, find_in f (pe_in e) = Some r /\ ir_interest r = i3;
  rd_sc : forall n, sc_at (fw_t s3) n = sc_at (fw_t s) n;
  rd_meas : forall n, meas_at (fw_t s3) n = meas_at (fw_t s) n;
  rd_priv : fw_priv s3 = fw_priv s;
  rd_nondisc : i_nondisc i3 = i_nondisc i;
  rd_ins : forall g r, g <> f -> find_in g (pe_in e) = Some r <-> in_record_of s (key_of i) g r;
}.

Lemma ready_name s f i i3 e s3 : ready s f i i3 e s3 -> i_name i3 = i_name i.
Proof. intros R. destruct (rd_hop _ _ _ _ _ _ R) as [H _]. by injection H. Qed.
Lemma longest_ext {V} (g h : name -> option V) n p : (forall m, g m = h m) -> longest_defined g n p -> longest_defined h n p.
Proof. intros H. unfold longest_defined. rewrite <- (H p). intros (H1 & H2 & H3). split; [done|]. split; [done|]. intros q. rewrite <- (H q). apply H3. Qed.
Lemma nexthops_ext s s3 hint n l : (forall n, fib_at (fw_t s3) n = fib_at (fw_t s) n) -> nexthops_for s3 hint n l -> nexthops_for s hint n l.
Proof.
  intros H. assert (H1 : forall m l, route_for s3 m l -> route_for s m l).
  { intros m l' (p & fe & A & B & C). exists p, fe. split; [by eapply (longest_ext (fun m => fib_at (fw_t s3) m))|]. split; [by rewrite <- H|done]. }
  assert (H2 : forall m, no_route s3 m -> no_route s m) by (intros m A p Hp; rewrite <- H; by apply A).
  assert (H3 : forall h, Forall (no_route s3) h -> Forall (no_route s) h) by (intros h Hh; by eapply Forall_impl; [exact Hh|]).
  unfold nexthops_for. destruct hint as [|d0 h0]; [intros [?|[??]]; [left|right]; eauto|].
  intros [(h1 & d & h2 & A & B & C)|[A B]]; [left; exists h1, d, h2|right]; eauto.
Qed.
Lemma lookup_nexthops s e fe : Inv s -> lookup_fib s e = Some fe -> nexthops_for s (i_hint (pe_interest e)) (i_name (pe_interest e)) (fe_nexthops fe) /\ nexthops_ok (fe_nexthops fe).
Proof.
  intros I. assert (Hok : forall n, nexthops_ok (fe_nexthops (fib_lpm n (fw_t s)))).
  { intros n. destruct (fib_lpm_ok n (fw_t s) (ti_tree _ (iv_tab _ I))) as [(p & Hp & Hf)|[Hno ->]]; [|by split; constructor]. by apply (ti_fib _ (iv_tab _ I)) in Hf as [_ ?]. }
  unfold lookup_fib, nexthops_for. destruct (i_hint (pe_interest e)) as [|d0 h0] eqn:Eh.
  - intros [= <-]. split; [|apply Hok]. destruct (lpm_route s (i_name (pe_interest e)) I) as [?|[? ->]]; [by left|by right].
  - destruct (in_producer_region (d0 :: h0) (fw_regions s)) eqn:Er; [done|].
    assert (Hg : forall hint last, (forall fe, last = Some fe -> fe_nexthops fe = []) -> lookup_fib_hint (fw_t s) hint last = Some fe ->
      ((exists h1 d h2, hint = h1 ++ d :: h2 /\ Forall (no_route s) h1 /\ route_for s d (fe_nexthops fe)) \/ (Forall (no_route s) hint /\ fe_nexthops fe = [])) /\ nexthops_ok (fe_nexthops fe)).
    { clear Er Eh d0 h0. induction hint as [|d hint IH]; intros last Hlast H; simpl in H.
      - destruct last as [fe'|]; [|done]. destruct (fe_prefix fe'); [|done]. injection H as <-. rewrite (Hlast _ eq_refl). split; [|by split; constructor]. right. split; [constructor|done].
      - destruct (lpm_route s d I) as [Hr|[Hn E]].
        + destruct (fe_nexthops (fib_lpm d (fw_t s))) as [|h l] eqn:El; [destruct Hr as (? & ? & _ & _ & _ & Hx); done|]. injection H as <-. split; [|apply Hok]. left. exists [], d, hint. rewrite El. split; [done|]. split; [constructor|done].
        + rewrite E in H. simpl in H. apply IH in H as [[(h1 & d1 & h2 & -> & Hf & Hr)|[Hf He]] Ho]; [| |by intros fe0 [= <-]]; (split; [|done]).
          * left. exists (d :: h1), d1, h2. split; [done|]. split; [by constructor|done].
          * right. split; [by constructor|done]. }
    intros H. by apply (Hg _ None).
Qed.
(** the first nexthop that qualifies is the cheapest *)
Lemma find_cheapest (p : nexthop -> bool) (P : nexthop -> Prop) l : StronglySorted cost_le l -> (forall h, h ∈ l -> p h = true <-> P h) ->
  match List.find p l with Some h => cheapest P l h | None => forall h, h ∈ l -> ~ P h end.
Proof.
  intros Hs HP. induction Hs as [|h l Hs IH Hf]; simpl; [intros h Hh; by apply elem_of_nil in Hh|].
  destruct (p h) eqn:E.
  - split; [left|]. split; [apply HP; [left|done]|]. intros h' [->|Hh']%elem_of_cons _; [done|]. rewrite Forall_forall in Hf. by apply Hf.
  - assert (Hn : ~ P h) by (intros Hx%HP; [congruence|left]). assert (HP' : forall h, h ∈ l -> p h = true <-> P h) by (intros; apply HP; by right). specialize (IH HP').
    destruct (List.find p l) as [h1|].
    + destruct IH as (A & B & C). split; [by right|]. split; [done|]. intros h' [->|Hh']%elem_of_cons; [done|by apply C].
    + intros h' [->|Hh']%elem_of_cons; [done|by apply IH].
Qed.

Section at_.
  Variable sort_nexthops : list nexthop -> list nexthop.
  Variable create_strategy : name -> create_result.
  Variable same_type : name -> name -> bool.
  Variable make_entry : name -> N -> Dnl_Model.fingerprint.
  Variable rand : nat -> nat.
  Variable face_order : list N -> list N.
  Variable strategies : name -> strategy.
  Notation step := (fw_step sort_nexthops create_strategy same_type make_entry rand face_order strategies).
  Notation reachable := (fw_reachable sort_nexthops create_strategy same_type make_entry rand face_order strategies).
  Hypothesis W : world_ok sort_nexthops same_type face_order.
  Notation inv_of R := (proj1 (reachable_inv _ _ _ _ _ _ _ W _ R)).

  Lemma at_strategy s f i s' p inst : reachable s -> ev_ok s (EvInterest f i) -> step s (EvInterest f i) = Some s' ->
    takes_interest make_entry s (EvInterest f i) (key_of i) f i -> i_nexthop i = None -> not_cached s i -> governs (fun m => sc_at (fw_t s) m) (i_name i) p inst ->
    exists i3 e s3, ready s f i i3 e s3 /\ run rand face_order (Some i3) (key_of i) (st_interest (strategies inst) i3 f (key_of i)) s3 = Some (s', tt).
  Proof.
    intros R Ho H (_ & _ & Hhop & Hsc & Hdn & Hnl) Hnh Hcs Hgov. apply step_event in H. pose proof (inv_of R) as I. simpl in H. pose proof Ho as (_ & Hlife & _).
    eapply interest_cases in H as (fc & Hf & Hc); [|done|done].
    destruct Hc as [Hz _|_ Hloc Hn%is_localhost_spec _|Hz _ Hp']; [done|destruct (Hsc Hn) as (fc' & ? & ?); congruence|].
    destruct Hp' as [Hd _|i2 e new s1 _ Hi2 Hins Hp']; [congruence|].
    assert (Hk2 : key_of i2 = key_of i) by (subst i2; by apply one_hop_i2). destruct (i2_kept (fw_regions s) i) as (Ht2 & Hnh2 & Hno2 & Hl2). rewrite <- Hi2 in Ht2, Hnh2, Hno2, Hl2.
    assert (Hoh2 : one_hop i i2).
    { subst i2. apply one_hop_strip. unfold dec_hop, one_hop. destruct (i_hop i) as [h|] eqn:Eh; simpl; [|by rewrite Eh]. split; [done|]. exists (h - 1)%N. split; [|done].
      assert (h <> 0)%N by (intros ->; by apply Hhop). lia. }
    assert (Hh2 : (in_region s (i_hint i) /\ i_hint i2 = []) \/ (~ in_region s (i_hint i) /\ i_hint i2 = i_hint i)).
    { subst i2. unfold strip_hint. assert (Hd : i_hint (dec_hop i) = i_hint i) by (unfold dec_hop; by destruct (i_hop i)). rewrite Hd. destruct (i_hint i) as [|d0 h0] eqn:Eh.
      - right. split; [|done]. intros (d & r0 & Hx & _). by apply elem_of_nil in Hx.
      - destruct (in_producer_region (d0 :: h0) (fw_regions s)) eqn:Er; [left; split; [by apply in_region_spec|done]|]. right. split; [|done]. intros Hx%in_region_spec. congruence. }
    pose proof (ins_e _ _ _ _ _ Hins) as He. rewrite Hk2 in He. change (fw_t (got (Rx_interest f i) inc_in_interests s)) with (fw_t s) in He.
    assert (Hn1 : now (fw_t s1) = now (fw_t s)) by (by rewrite (sc_now _ _ (ins_core _ _ _ _ _ Hins))).
    destruct Hp' as [Hd _|c d _ Hin Hfind _ _|s2 e3 s3 _ Hncs I2 Hm Hfw].
    - exfalso. apply Hnl. destruct (pit_at (fw_t s) (key_of i)) as [e1|] eqn:E1; simpl in He; subst e.
      + rewrite Hno2 in Hd. by apply (is_dup_spec s f fc i e1 I Hf E1).
      + by destruct (is_dup_new _ _ _ _ Hd).
    - exfalso. destruct Hcs as [(g & r & e0 & He0 & Hr & _)|Hno].
      { rewrite He0 in He. simpl in He. subst e0. rewrite Hin in Hr. by apply elem_of_nil in Hr. }
      destruct (iv_cs _ I) as [limit Hreach]. destruct (Cs_Main.cs_find_main limit (now (fw_t s)) i2 (fw_cs s) Hreach) as (c' & r & Hfind' & _ & Hr).
      rewrite Hn1, (sc_cs _ _ (ins_core _ _ _ _ _ Hins)) in Hfind. change (fw_cs (got (Rx_interest f i) inc_in_interests s)) with (fw_cs s) in Hfind. rewrite Hfind' in Hfind. injection Hfind as -> ->.
      destruct Hr as (_ & _ & e0 & H0 & Hd0 & Hs0 & Hmin).
      assert (Hsat : forall e0, Cs_Spec.entry_satisfies (now (fw_t s)) i2 e0 <-> Cs_Spec.entry_satisfies (now (fw_t s)) i e0) by (intros e1; split; by apply cs_satisfies_ext).
      apply (Hno d). exists e0. split; [done|]. split; [done|]. split; [by apply Hsat|]. intros e1 H1 H1'%Hsat. by apply Hmin.
    - assert (Ht : fw_t s2 = fw_t s1 /\ fw_faces s2 = fw_faces s1 /\ fw_log s2 = fw_log s1 /\ fw_regions s2 = fw_regions s1) by (by destruct Hncs as [[_ ->]|(_ & c & _ & ->)]). destruct Ht as (Ht & Htf & Htl & Htr).
      pose proof (ms_wrote _ _ _ _ _ _ _ _ _ Hm) as Hw. pose proof (wr_core _ _ _ _ _ Hw) as C3. pose proof (ins_core _ _ _ _ _ Hins) as C1.
      set (i3 := with_default_hop s2 i2) in *. destruct (i3_kept s2 i2) as (Ht3 & Hnh3 & Hno3 & Hl3 & Hk3). fold i3 in Ht3, Hnh3, Hno3, Hl3, Hk3.
      assert (Hfib : forall n, fib_at (fw_t s3) n = fib_at (fw_t s) n) by (intros n; rewrite (sc_fib _ _ C3); simpl; rewrite Ht; exact (sc_fib _ _ C1 n)).
      assert (Hsc3 : forall n, sc_at (fw_t s3) n = sc_at (fw_t s) n) by (intros n; rewrite (sc_sc _ _ C3); simpl; rewrite Ht; exact (sc_sc _ _ C1 n)).
      unfold forwards in Hfw. rewrite Hnh3, Hnh2, Hnh in Hfw. destruct Hfw as (q & inst' & Heff & Hrun).
      assert (inst' = inst) as ->.
      { apply effective_ok in Heff as [E1 E2]; [|apply (iv_tab _ (wr_inv _ _ _ _ _ Hw))]. rewrite Hk2 in E1. destruct Hgov as [G1 G2].
        assert (q = p) as ->; [|rewrite Hsc3, G2 in E2; by injection E2]. eapply longest_defined_fun; [|exact G1]. by eapply (longest_ext (fun m => sc_at (fw_t s3) m)). }
      rewrite Hk2 in Hrun. exists i3, e3, s3. split; [|exact Hrun].
      pose proof (wr_entry _ _ _ _ _ Hw) as [E1 _]. change (pit_at (fw_t s2) (key_of i2) = Some e) in E1.
      assert (Hrec : pe_interest e3 = pe_interest e \/ exists h, pe_interest e3 = with_hop h (pe_interest e)) by (rewrite (ms_interest _ _ _ _ _ _ _ _ _ Hm); destruct (_ && _); [right; by eexists|by left]).
      split.
      + apply Hw.
      + rewrite (sc_faces _ _ C3). simpl. rewrite Htf. exact (sc_faces _ _ C1).
      + done.
      + rewrite (sc_regions _ _ C3). simpl. rewrite Htr. exact (sc_regions _ _ C1).
      + rewrite (sc_now _ _ C3). simpl. by rewrite Ht.
      + rewrite (wr_log _ _ _ _ _ Hw). simpl. rewrite Htl. exact (ins_log _ _ _ _ _ Hins).
      + rewrite <- Hk2. exact (proj2 (wrote_at _ _ _ _ _ Hw)).
      + rewrite (ms_out _ _ _ _ _ _ _ _ _ Hm), He. unfold outs_of. by destruct (pit_at (fw_t s) (key_of i)).
      + rewrite (ms_info _ _ _ _ _ _ _ _ _ Hm), He. unfold info_of. by destruct (pit_at (fw_t s) (key_of i)).
      + assert (Hh : i_hint (pe_interest e3) = i_hint (pe_interest e)) by (by destruct Hrec as [->|[h ->]]). rewrite Hh, He. unfold hint_for. by destruct (pit_at (fw_t s) (key_of i)).
      + assert (Hh : i_name (pe_interest e3) = i_name (pe_interest e)) by (by destruct Hrec as [->|[h ->]]). rewrite Hh. pose proof (ins_key _ _ _ _ _ Hins) as Hk. rewrite Hk2 in Hk. by injection Hk.
      + by apply one_hop_default.
      + congruence.
      + congruence.
      + congruence.
      + destruct (entry_ok _ _ _ I2 E1) as [[N3 _ _ _] _]. destruct (insert_in_ok f i3 (now (fw_t s2)) (pe_in e) N3) as (_ & Hfi & _). rewrite (ms_in _ _ _ _ _ _ _ _ _ Hm). rewrite Hfi, decide_True by done. by eexists.
      + done.
      + intros n. rewrite (wr_meas _ _ _ _ _ Hw). simpl. rewrite Ht. exact (ins_meas _ _ _ _ _ Hins n).
      + rewrite (wr_priv _ _ _ _ _ Hw). simpl. assert (fw_priv s2 = fw_priv s1) as -> by (by destruct Hncs as [[_ ->]|(_ & c & _ & ->)]). by rewrite (ins_fw _ _ _ _ _ Hins).
      + assert (Hn3 : i_nondisc i3 = i_nondisc i2) by (unfold i3, with_default_hop; by destruct (add_hop _ _)). rewrite Hn3, Hi2. unfold strip_hint, dec_hop. destruct (i_hop i); simpl; (destruct (i_hint i); simpl; [|destruct (in_producer_region _ _)]); done.
      + destruct (entry_ok _ _ _ I2 E1) as [[N3 _ _ _] _]. destruct (insert_in_ok f i3 (now (fw_t s2)) (pe_in e) N3) as (_ & Hfi & _). intros g r Hg. rewrite (ms_in _ _ _ _ _ _ _ _ _ Hm), Hfi, decide_False by done. unfold in_record_of.
        destruct (pit_at (fw_t s) (key_of i)) as [e0|] eqn:E0; simpl in He; subst e.
        * split; [intros [A B]%find_in_Some; by exists e0|]. intros (e1 & [= <-] & A & <-). by apply elem_find_in.
        * split; [done|]. by intros (e1 & ? & _).
  Qed.
End at_.
