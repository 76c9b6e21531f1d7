(** Properties C23, C24, C25: scope and hop limit *)
From stdpp Require Import gmap.
From Verif Require Import Lib Name_Model Packet_Model Nt_Model Nt_Spec Tree_Model Tab_Model Tab_Spec Tab_At Tab_Pit Fw_Model Fw_Spec Fw_Inv Fw_Case Fw_Case2 Fw_Case3 Fw_Hist Fw_Step Fw_Out Fw_Main Fw_Ex Fib_Props.
From Verif Require Cs_Model Cs_Spec Dnl_Model.

Section props.
  Variable sort_nexthops : list nexthop -> list nexthop.
  Variable create_strategy : name -> create_result.
  Variable same_type : name -> name -> bool.
  Variable make_entry : name -> N -> Dnl_Model.fingerprint.
  Variable rand : nat -> nat.
  Variable face_order : list N -> list N.
  Variable strategies : name -> strategy.
  Notation step := (fw_step sort_nexthops create_strategy same_type make_entry rand face_order strategies).
  Notation reachable := (fw_reachable sort_nexthops create_strategy same_type make_entry rand face_order strategies).
  Notation reachable_if := (fw_reachable_if sort_nexthops create_strategy same_type make_entry rand face_order strategies).

  (** C23: an Interest or Data under /localhost that arrives on a non-local face is only counted:
      in any state, whatever the strategies do *)
  Theorem C23_interest s f i : nonlocal_face s f -> localhost (i_name i) ->
    exists s', step s (EvInterest f i) = Some s' /\ same_but_log s s' /\ added s s' [Rx_interest f i].
  Proof.
    intros (fc & Hf & Hl) Hn%is_localhost_spec. unfold fw_step, fw_event, on_incoming_interest, bind, emit, count, put, face_of, get. simpl. rewrite Hf. simpl.
    destruct (match i_hop i with Some h => (h =? 0)%N | None => false end); [by eexists|]. rewrite Hl. simpl.
    assert (Hd : i_name (match i_hop i with Some h => with_hop (Some (h - 1)%N) i | None => i end) = i_name i) by (by destruct (i_hop i)).
    rewrite Hd, Hn. by eexists.
  Qed.
  Theorem C23_data s f d : nonlocal_face s f -> localhost (d_name d) ->
    exists s', step s (EvData f d) = Some s' /\ same_but_log s s' /\ added s s' [Rx_data f d].
  Proof.
    intros (fc & Hf & Hl) Hn%is_localhost_spec. unfold fw_step, fw_event, on_incoming_data, bind, emit, count, put, face_of, get. simpl. rewrite Hf. simpl.
    rewrite Hl, Hn. by eexists.
  Qed.

  Hypothesis W : world_ok sort_nexthops same_type face_order.
  (** a Nack likewise, provided that the strategies respect scope and no client has sent an
      Interest under /localhost to a face of its choice with NextHopFaceId *)
  Theorem C23_nack s f i reason s' : (forall inst, scoped (strategies inst)) ->
    reachable_if (fun ev => match ev with EvInterest _ i => localhost (i_name i) -> i_nexthop i = None | _ => True end) s ->
    nonlocal_face s f -> localhost (i_name i) -> step s (EvNack f i reason) = Some s' ->
    same_but_log s s' /\ added s s' [Rx_nack f i reason].
  Proof.
    intros Hsc R (fc0 & Hf0 & Hl) Hn H%step_event. apply if_reachable in R as R0. destruct (reachable_inv _ _ _ _ _ _ _ W _ R0) as [I _].
    simpl in H. apply nack_cases in H as (fc & Hf & [_ ->|e r s1 s2 p inst _ He Hr _ _ _ _ _]); [done| |done].
    assert (Hx : has_out s (key_of i) f).
    { apply find_out_Some in Hr as [Hr Hfr]. by exists r, e. }
    eapply (out_scope sort_nexthops create_strategy same_type make_entry rand face_order strategies W s Hsc R) in Hx; [|done]. destruct Hx as (fc' & Hf' & Hl'). congruence.
  Qed.

  (** C24 *)
  Theorem C24_interest s ev s' l g j : (forall inst, scoped (strategies inst)) -> reachable s -> ev_ok s ev -> step s ev = Some s' -> added s s' l ->
    Tx_interest g j ∈ l ->
    (exists f i, ev = EvInterest f i /\ i_nexthop i = Some g /\ key_of j = key_of i) \/
    (localhost (i_name j) -> local_face s g) /\
    (localhop (i_name j) -> local_face s g \/ exists f i, local_face s f /\ asks s ev f (key_of j) i).
  Proof. intros Hsc R. destruct (reachable_inv _ _ _ _ _ _ _ W _ R) as [I _]. by eapply scope_interest. Qed.
  Lemma sio_data_scope fresh K k s s' g d tok : sio fresh K k s s' (Tx_data g d tok) -> localhost (d_name d) -> local_face s g.
  Proof. intros H Hn%is_localhost_spec. inversion H as [|g' d' fc f0 lr j L HK Hg Hl Hb|]; subst. exists fc. split; [done|by apply Hl]. Qed.
  Theorem C24_data s ev s' l g d tok : reachable s -> ev_ok s ev -> step s ev = Some s' -> added s s' l ->
    Tx_data g d tok ∈ l -> localhost (d_name d) -> local_face s g.
  Proof.
    intros R Ho H Hl Hx Hn. eapply event_any in Hx; [|done..]. inversion Hx; subst; try (eapply sio_data_scope; [eassumption|exact Hn]).
    - apply is_localhost_spec in Hn. eexists; split; [eassumption|auto].
    - apply is_localhost_spec in Hn. eexists; split; [eassumption|auto].
  Qed.

  (** C25 *)
  Theorem C25_drop s f i : face_exists s f -> i_hop i = Some 0%N ->
    exists s', step s (EvInterest f i) = Some s' /\ same_but_log s s' /\ added s s' [Rx_interest f i].
  Proof.
    intros [fc Hf] Hh. unfold fw_step, fw_event, on_incoming_interest, bind, emit, count, put, face_of, get. simpl. rewrite Hf. simpl. rewrite Hh. by eexists.
  Qed.
  (** each Interest sent comes from one received before, whose hop limit was one more *)
  Theorem C25_sourced s : reachable s -> sourced (fw_log s).
  Proof. intros R. destruct (reachable_inv _ _ _ _ _ _ _ W _ R) as [_ H]. apply H. Qed.
  Lemma sio_hop fresh K k s s' g j : sio fresh K k s s' (Tx_interest g j) -> i_hop j = Some 0%N -> local_face s g.
  Proof. intros H Hz. inversion H as [g' j' fc lr src nonce nd L HK Hg Hl| |]; subst. exists fc. split; [done|by apply Hl]. Qed.
  Theorem C25_egress s ev s' l g j : reachable s -> ev_ok s ev -> step s ev = Some s' -> added s s' l ->
    Tx_interest g j ∈ l -> i_hop j = Some 0%N -> local_face s g.
  Proof.
    intros R Ho H Hl Hx Hz. eapply event_any in Hx; [|done..]. inversion Hx; subst; try (eapply sio_hop; [eassumption|exact Hz]).
    eexists; split; [eassumption|auto].
  Qed.
End props.
(** along a chain of forwarders: of the transmissions that follow the first, fewer than h can cross
    a non-local link, since by C25_egress those do not carry hop limit 0; and there are at most h
    altogether *)
Theorem C25_links i l h : hops i l -> i_hop i = Some h ->
  (length l <= N.to_nat h)%nat /\ (length (List.filter (fun j => negb (bool_decide (i_hop j = Some 0%N))) l) <= N.to_nat h - 1)%nat.
Proof.
  intros H. revert h. induction H as [i|i j l [_ H1] H2 IH]; intros h Hh; simpl; [lia|]. rewrite Hh in H1. destruct H1 as (h' & -> & Hj).
  destruct (IH h' Hj) as [IH1 IH2]. split; [lia|]. rewrite Hj. destruct (decide (h' = 0%N)) as [->|Hz]; simpl; [lia|].
  rewrite bool_decide_false by congruence. simpl. lia.
Qed.

(** ** Cases that meet the hypotheses *)
Definition lh (l : list comp) : name := (8%N, ascii_localhost) :: l.
Definition lhop (l : list comp) : name := (8%N, ascii_localhop) :: l.
(** a reachable state with routes, in which a local client is waiting for Data under /localhost;
    face 257 is not local *)
Definition ex_scope_evs : list event :=
  ex_faces ++ [EvFibAdd (lh []) 257 0; EvFibAdd (lh []) 256 0; EvFibAdd (lhop []) 257 0; EvFibAdd (lhop []) 258 0; EvFibAdd (lhop []) 256 0;
               EvFaceAdd (Face true LINK_P2P); EvInterest 260 (ex_interest (lh [gc 1]) 5)].
Definition sent_to (l : list io) : list (N * N) :=
  omap (fun x => match x with Tx_interest g _ => Some (1%N, g) | Tx_data g _ _ => Some (2%N, g) | Tx_nack g _ _ => Some (3%N, g) | _ => None end) l.
(** the Interest under /localhost went to the local face 256 only, not to 257; the Data answers it *)
Example C24_ex_localhost :
  ex_holds ex_scope_evs (fun s => bool_decide (sent_to (fw_log s) = [(1, 256)]%N)) = true /\
  ex_holds (ex_scope_evs ++ [EvData 256 (ex_data (lh [gc 1]))]) (fun s => bool_decide (sent_to (fw_log s) = [(2, 260); (1, 256)]%N)) = true.
Proof. by vm_compute. Qed.
(** under /localhop: from a local face to all, from a non-local face only to local ones *)
Example C24_ex_localhop :
  ex_holds (ex_scope_evs ++ [EvInterest 256 (ex_interest (lhop [gc 2]) 6)]) (fun s => bool_decide (sent_to (fw_log s) = [(1, 258); (1, 257); (1, 256)]%N)) = true /\
  ex_holds (ex_scope_evs ++ [EvInterest 257 (ex_interest (lhop [gc 2]) 6)]) (fun s => bool_decide (sent_to (fw_log s) = [(1, 256); (1, 256)]%N)) = true.
Proof. by vm_compute. Qed.
Example C24_ex_scoped : (forall inst, scoped (ex_strategies inst)) /\ world_ok isort name_eqb ex_order.
Proof. split; [intros inst; apply flood_scoped|exact ex_world]. Qed.
Example C23_ex : exists s, ex_reachable_if no_bypass s /\ nonlocal_face s 257 /\ localhost (lh [gc 1]) /\
  is_Some (ex_step s (EvNack 257 (ex_interest (lh [gc 1]) 5) 50)).
Proof.
  destruct (ex_holds_ok ex_scope_evs (fun s => match fw_faces s !! 257%N with Some fc => negb (fc_local fc) | None => false end &&
    match ex_step s (EvNack 257 (ex_interest (lh [gc 1]) 5) 50) with Some _ => true | None => false end)) as (s & Hs & _ & [H1 H2]%andb_prop); [by vm_compute|].
  exists s. split; [|split; [|split]].
  - eapply ex_start_reach; [|exact Hs]. unfold ex_scope_evs, ex_faces. cbn [app]. repeat (apply List.Forall_cons; [first [exact I|exact (fun _ => eq_refl)]|]). apply List.Forall_nil.
  - destruct (fw_faces s !! 257%N) as [fc|] eqn:E; [|done]. exists fc. split; [done|]. by destruct (fc_local fc).
  - by exists [gc 1].
  - destruct (ex_step s _); [by eexists|done].
Qed.

(** The exception is real: with NextHopFaceId an Interest under /localhost leaves through a
    non-local face; then a Nack for it that comes back is processed and passed on to the client, so
    the last claim of C23 is false without its hypothesis on NextHopFaceId. *)
Definition to_face (g : N) (i : interest) : interest := Interest (i_name i) (i_cbp i) (i_mbf i) (i_nonce i) (i_lifetime i) (i_hop i) (i_hint i) (Some g) (i_token i) (i_nondisc i).
Definition ex_bypass_evs : list event := ex_faces ++ [EvInterest 256 (to_face 257 (ex_interest (lh [gc 1]) 5))].
Definition ex_bypass_nack : event := EvNack 257 (ex_interest (lh [gc 1]) 5) 50.
Theorem C23_nack_refuted : exists s s' j, ex_reachable s /\ ev_ok s ex_bypass_nack /\ nonlocal_face s 257 /\ ex_step s ex_bypass_nack = Some s' /\
  fw_log s' = Tx_nack 256 j 50 :: Rx_nack 257 (ex_interest (lh [gc 1]) 5) 50 :: fw_log s /\ localhost (i_name j).
Proof.
  pose (jj := ex_interest (lh [gc 1]) 5).
  destruct (ex_holds_ok ex_bypass_evs (fun s => match fw_faces s !! 257%N with Some fc => negb (fc_local fc) | None => false end &&
    match ex_step s ex_bypass_nack with Some s' => bool_decide (fw_log s' = Tx_nack 256 (to_face 257 jj) 50 :: Rx_nack 257 jj 50 :: fw_log s) | None => false end)) as (s & Hs & R & [H1 H2]%andb_prop); [by vm_compute|].
  destruct (ex_step s ex_bypass_nack) as [s'|] eqn:E; [|done]. apply bool_decide_eq_true in H2. exists s, s', (to_face 257 jj).
  destruct (fw_faces s !! 257%N) as [fc|] eqn:Ef; [|done].
  split; [done|]. split; [by exists fc|]. split; [exists fc; split; [done|by destruct (fc_local fc)]|]. split; [done|]. split; [done|by exists [gc 1]].
Qed.
(** hop limit: 1 is not sent to non-local faces, 2 is sent with 1 *)
Definition with_limit (h : N) (i : interest) : interest := Interest (i_name i) (i_cbp i) (i_mbf i) (i_nonce i) (i_lifetime i) (Some h) (i_hint i) (i_nexthop i) (i_token i) (i_nondisc i).
Definition ex_hop_evs : list event := ex_faces ++ [EvFibAdd [gc 1] 257 0; EvFibAdd [gc 1] 258 0; EvFibAdd [gc 1] 256 0].
Definition hops_sent (l : list io) : list (N * option N) := omap (fun x => match x with Tx_interest g j => Some (g, i_hop j) | _ => None end) l.
Example C25_ex :
  ex_holds (ex_hop_evs ++ [EvInterest 257 (with_limit 2 (ex_interest [gc 1] 5))]) (fun s => bool_decide (hops_sent (fw_log s) = [(258, Some 1); (256, Some 1)]%N)) = true /\
  ex_holds (ex_hop_evs ++ [EvInterest 257 (with_limit 1 (ex_interest [gc 1] 5))]) (fun s => bool_decide (hops_sent (fw_log s) = [(256, Some 0)]%N)) = true /\
  ex_holds (ex_hop_evs ++ [EvInterest 257 (with_limit 0 (ex_interest [gc 1] 5))]) (fun s => bool_decide (hops_sent (fw_log s) = [])) = true.
Proof. by vm_compute. Qed.
Example C25_links_ex : exists i l, hops i l /\ i_hop i = Some 3%N /\ length l = 3%nat /\
  length (List.filter (fun j => negb (bool_decide (i_hop j = Some 0%N))) l) = 2%nat.
Proof.
  pose (i := ex_interest [gc 1] 5). exists (with_limit 3 i), [with_limit 2 i; with_limit 1 i; with_limit 0 i]. split; [|done].
  apply hops_cons; [split; [done|by exists 2%N]|]. apply hops_cons; [split; [done|by exists 1%N]|]. apply hops_cons; [split; [done|by exists 0%N]|]. apply hops_nil.
Qed.

Print Assumptions C23_interest.
Print Assumptions C23_data.
Print Assumptions C23_nack.
Print Assumptions C23_nack_refuted.
Print Assumptions C24_interest.
Print Assumptions C24_data.
Print Assumptions C25_drop.
Print Assumptions C25_sourced.
Print Assumptions C25_egress.
Print Assumptions C25_links.
