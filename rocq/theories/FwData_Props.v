(** Properties C26, C27, C31, C32: Data, cached and not *)
From stdpp Require Import gmap.
From Verif Require Import Lib Name_Model Packet_Model Nt_Model Nt_Spec Tree_Model Tab_Model Tab_Spec Tab_At Tab_Pit Fw_Model Fw_Spec Fw_Inv Fw_Case Fw_Case2 Fw_Case3 Fw_Hist Fw_Acc Fw_Step Fw_Out Fw_Main Fw_Data Fw_Ex Fib_Props.
From Verif Require Cs_Model Cs_Spec Dnl_Model.

Section props.
  Variable sort_nexthops : list nexthop -> list nexthop.
  Variable create_strategy : name -> create_result.
  Variable same_type : name -> name -> bool.
  Variable make_entry : name -> N -> Dnl_Model.fingerprint.
  Variable rand : nat -> nat.
  Variable face_order : list N -> list N.
  Variable strategies : name -> strategy.
  Notation step := (fw_step sort_nexthops create_strategy same_type make_entry rand face_order strategies).
  Notation reachable := (fw_reachable sort_nexthops create_strategy same_type make_entry rand face_order strategies).
  Hypothesis W : world_ok sort_nexthops same_type face_order.

  (** C26: over every history, each Data (and Nack) sent on a face answers an Interest that face
      sent and that had not been answered, and answers it for good *)
  Theorem C26_accounted s : (forall inst d f k, quiet (st_before (strategies inst) d f k)) -> reachable s ->
    exists P, accounted (fw_log s) P /\ forall k f r, in_record_of s k f r -> P f k.
  Proof.
    intros Hq R. destruct (reachable_acc sort_nexthops create_strategy same_type make_entry rand face_order strategies W Hq s R) as (P & H1 & H2). exists P. split; [done|].
    intros k f r (e & He & Hr & <-). by eapply H2.
  Qed.
  Lemma in_from_asks (fresh : N -> interest -> Prop) s ev k g j : in_from fresh s k g j -> (fresh g j -> asks s ev g k j) -> asks s ev g k j.
  Proof. intros [H|H] Hf; [by apply Hf|by left]. Qed.
  (** each single Data: the face is waiting for it with an Interest it satisfies, and is not any
      more afterwards; the PIT token is the one of that Interest, or there is none *)
  Theorem C26_match s ev s' l g d tok : reachable s -> ev_ok s ev -> step s ev = Some s' -> added s s' l -> Tx_data g d tok ∈ l ->
    exists k j, asks s ev g k j /\ satisfies k d /\ (tok = i_token j \/ tok = None) /\ not_waiting s' g k.
  Proof.
    intros R Ho H Hl Hx. eapply event_any in Hx; [|done..].
    assert (R' : reachable s') by (by eapply fw_reach_step). destruct (reachable_inv _ _ _ _ _ _ _ W _ R') as [I' _]. destruct (reachable_inv _ _ _ _ _ _ _ W _ R) as [I _].
    assert (Hsio : forall fresh K k, sio fresh K k s s' (Tx_data g d tok) -> (forall g j, fresh g j -> asks s ev g k j) ->
      exists k j, asks s ev g k j /\ satisfies k d /\ (tok = i_token j \/ tok = None) /\ not_waiting s' g k).
    { intros fresh K k Hs Hf. inversion Hs as [|g' d' fc f0 lr j L HK Hg Hlo Hb Hi Hsat Hgone|]; subst. exists k, j. split; [eapply in_from_asks; [exact Hi|apply Hf]|]. split; [done|]. split; [by left|]. by apply not_waiting_gone. }
    inversion Hx as [| | | |f i j d' fc Hj Htok Hs Hfc Hlo Hgone| |f i i3 x Hj Htok Hnh Hs|f d' k x Hm Hs|f d' g' k e r fc Hm He Hr Hg Ht Hfc Hlo Hb Hgone|f i r k x Hs|inst arg k x Hs|p f c k x Hs]; subst.
    - exists (key_of i), j. split; [right; by exists i|]. split; [done|]. split; [by left|]. by apply not_waiting_gone.
    - eapply Hsio; [exact Hs|]. intros g' j' [-> ->]. right. by exists i.
    - eapply Hsio; [exact Hs|]. by intros g' j' [].
    - exists k, (ir_interest r). split; [left; exists r; split; [by exists e|done]|]. split; [|split; [by right|by apply not_waiting_gone]].
      destruct Hm as (e' & He' & Hm). eapply satisfies_key; [|exact Hm]. by destruct (entry_ok _ _ _ I He').
    - eapply Hsio; [exact Hs|]. by intros g' j' [].
    - eapply Hsio; [exact Hs|]. by intros g' j' [].
    - eapply Hsio; [exact Hs|]. by intros g' j' [].
  Qed.
  (** never back where it came from, unless the link is ad hoc; only what has arrived is sent *)
  Definition KDb (F : gmap N face) (d : data) (f : N) (k : pit_key) (s : fw) (a : act) : Prop :=
    match a with AData d' f' => d' = d /\ f' = f | _ => True end.
  Theorem C26_not_back s f d s' l g d' tok :
    (forall inst d f k, returns_only d f (st_before (strategies inst) d f k)) -> (forall inst p d f k, st_data (strategies inst) = Some p -> returns_only d f (p d f k)) ->
    reachable s -> ev_ok s (EvData f d) -> step s (EvData f d) = Some s' -> added s s' l -> Tx_data g d' tok ∈ l ->
    d' = d /\ (g = f -> adhoc_face s g).
  Proof.
    intros HB HD R Ho H%step_event Hl Hx. destruct (reachable_inv _ _ _ _ _ _ _ W _ R) as [I _].
    edestruct (event_io sort_nexthops create_strategy same_type make_entry rand face_order strategies W (fun _ _ _ _ _ _ => True) KDb (fun _ _ _ _ => True)) as (l' & Hl' & Hx'); [..|exact H|]; try done;
      try (intros; apply obeys_true).
    - intros inst F d0 f0 k s0 _. eapply obeys_mono; [| |apply HB]; done.
    - intros inst p F d0 f0 k s0 Hp _. eapply obeys_mono; [| |eapply HD; exact Hp]; done.
    - rewrite (added_inj _ _ _ _ Hl Hl') in Hx. apply Hx' in Hx. clear -Hx.
      inversion Hx as [| | | | | | |f1 d1 k x Hm Hs|f1 d1 g' k e r fc Hm He Hr Hg Ht Hfc Hlo Hb Hgone| | |]; subst.
      + inversion Hs as [|g1 d1 fc f0 lr j L HK Hg Hlo Hb Hi Hsat Hgone|]; subst. destruct HK as [-> ->]. split; [done|]. intros ->. exists fc. split; [done|by apply Hb].
      + split; [done|]. intros Hgf. exists fc. split; [done|by apply Hb].
  Qed.

  (** C27: every face that is due the Data is sent it, once, and no other face is sent anything *)
  Theorem C27_all s f d s' l : (forall inst, default_data (strategies inst)) -> reachable s -> ev_ok s (EvData f d) -> (localhost (d_name d) -> local_face s f) ->
    step s (EvData f d) = Some s' -> added s s' l ->
    exists txs, l = txs ++ [Rx_data f d] /\ NoDup (omap data_to txs) /\
      (forall x, x ∈ txs -> exists g tok, x = Tx_data g d tok /\ due s f d g) /\
      (forall g, due s f d g -> exists tok, Tx_data g d tok ∈ txs).
  Proof.
    intros Hp R Ho Hs H Hl. destruct (reachable_inv _ _ _ _ _ _ _ W _ R) as [I _].
    destruct (data_all sort_nexthops create_strategy same_type make_entry rand face_order strategies W s f d s' l Hp I Ho Hs H Hl) as (txs & A1 & A2 & A3 & A4 & _). by exists txs.
  Qed.
  (** when the Data satisfies one PIT entry, each downstream gets its own PIT token back *)
  Theorem C27_token s f d s' l k0 g tok : (forall inst, default_data (strategies inst)) -> reachable s -> ev_ok s (EvData f d) -> (localhost (d_name d) -> local_face s f) ->
    step s (EvData f d) = Some s' -> added s s' l ->
    (forall k e, pit_at (fw_t s) k = Some e -> satisfies k d -> k = k0) -> Tx_data g d tok ∈ l ->
    exists r, in_record_of s k0 g r /\ tok = i_token (ir_interest r).
  Proof.
    intros Hp R Ho Hs H Hl Hk Hx. destruct (reachable_inv _ _ _ _ _ _ _ W _ R) as [I _].
    destruct (data_all sort_nexthops create_strategy same_type make_entry rand face_order strategies W s f d s' l Hp I Ho Hs H Hl) as (txs & -> & _ & _ & _ & A5).
    apply elem_of_app in Hx as [Hx|Hx%elem_of_list_singleton]; [|done]. by eapply A5.
  Qed.

  (** C31: Data that satisfies no pending Interest is sent nowhere, and changes nothing but the
      content store: it is inserted as unsolicited if the policy admits it *)
  Theorem C31_unsolicited s f d s' : reachable s -> ev_ok s (EvData f d) -> step s (EvData f d) = Some s' ->
    (forall k e, pit_at (fw_t s) k = Some e -> ~ satisfies k d) ->
    added s s' [Rx_data f d] /\ fw_t s' = fw_t s /\ fw_dnl s' = fw_dnl s /\ fw_faces s' = fw_faces s /\ fw_last s' = fw_last s /\ fw_priv s' = fw_priv s /\
    (fw_cs s' = fw_cs s \/ admits s f /\ Cs_Model.cs_insert (now (fw_t s)) d true (fw_cs s) = Some (fw_cs s')) /\
    (admits s f -> (localhost (d_name d) -> local_face s f) -> Cs_Model.cs_insert (now (fw_t s)) d true (fw_cs s) = Some (fw_cs s')).
  Proof.
    intros R Ho H%step_event Hno. destruct (reachable_inv _ _ _ _ _ _ _ W _ R) as [I _]. simpl in H. eapply data_cases in H as (fc & Hf & Hc); [|exact W|done|done].
    assert (Hm : forall k, ~ matching s d k).
    { intros k (e & He & Hm). eapply Hno; [exact He|]. eapply satisfies_key; [|exact Hm]. by destruct (entry_ok _ _ _ I He). }
    destruct Hc as [Hloc Hn ->|Hns _ Hs'|k e s1 s2 s3 _ _ Hks _ _ _ _|ks s1 s2 pend _ _ Hlen Hks _ _ _ _ _].
    - split; [done|]. split; [done|]. split; [done|]. split; [done|]. split; [done|]. split; [done|]. split; [by left|]. intros _ Hl. apply is_localhost_spec in Hn. destruct (Hl Hn) as (fc' & ? & ?). congruence.
    - assert (Had : unsol_decide (fw_unsol s) fc = true <-> admits s f).
      { unfold unsol_decide, admits. destruct (fw_unsol s); try done.
        - split; [intros H; by exists fc|intros (fc' & ? & ?); congruence].
        - split; [intros H; exists fc; split; [done|by destruct (fc_local fc)]|]. intros (fc2 & ? & Hl). assert (fc2 = fc) as -> by congruence. by rewrite Hl. }
      simpl in Hs'. destruct (unsol_decide (fw_unsol s) fc) eqn:Eu.
      + destruct Hs' as (c & Hc & -> & _). split; [done|]. split; [done|]. split; [done|]. split; [done|]. split; [done|]. split; [done|]. split; [right; split; [by apply Had|exact Hc]|]. by intros _ _.
      + rewrite Hs'. split; [done|]. split; [done|]. split; [done|]. split; [done|]. split; [done|]. split; [done|]. split; [by left|]. intros Ha%Had. congruence.
    - destruct (Hm k). by apply Hks.
    - destruct ks as [|k ks]; simpl in Hlen; [lia|]. destruct (Hm k). apply Hks. by left.
  Qed.

  (** C32: an Interest that is not pending from any face, not a loop, and that a cached packet
      satisfies *)
  Theorem C32_hit s f i s' l : reachable s -> ev_ok s (EvInterest f i) -> step s (EvInterest f i) = Some s' -> added s s' l ->
    i_hop i <> Some 0%N -> (localhost (i_name i) -> local_face s f) -> Dnl_Model.dnl_has make_entry (fw_dnl s) (i_name i) (i_nonce i) = false ->
    (forall e, pit_at (fw_t s) (key_of i) = Some e -> pe_in e = [] /\ forall r, r ∈ pe_out e -> fr_nonce (or_rec r) <> i_nonce i) ->
    Cs_Model.cs_serve (fw_cs s) = true -> (0 < Cs_Model.cs_limit (fw_cs s))%N ->
    (exists e, e ∈ Cs_Model.cs_table (fw_cs s) /\ Cs_Spec.entry_satisfies (now (fw_t s)) i e) ->
    exists d e', cs_answers s i d /\ (l = [Tx_data f d (i_token i); Rx_interest f i] \/ l = [Rx_interest f i] /\ localhost (d_name d) /\ nonlocal_face s f) /\
      pit_at (fw_t s') (key_of i) = Some e' /\ pe_timer e' = Some (now (fw_t s)) /\ pe_satisfied e' = true /\ pe_fresh e' = d_fresh d /\ pe_in e' = [] /\
      (forall k, k <> key_of i -> pit_at (fw_t s') k = pit_at (fw_t s) k) /\ Cs_Model.cs_table (fw_cs s') = Cs_Model.cs_table (fw_cs s).
  Proof. intros R. destruct (reachable_inv _ _ _ _ _ _ _ W _ R) as [I _]. by eapply hit_all. Qed.
End props.

(** ** Cases that meet the hypotheses *)
Definition tokened (t : N) (i : interest) : interest := Interest (i_name i) (i_cbp i) (i_mbf i) (i_nonce i) (i_lifetime i) (i_hop i) (i_hint i) (i_nexthop i) (Some t) (i_nondisc i).
Definition prefixed (i : interest) : interest := Interest (i_name i) true (i_mbf i) (i_nonce i) (i_lifetime i) (i_hop i) (i_hint i) (i_nexthop i) (i_token i) (i_nondisc i).
Lemma flood_default : default_data flood.
Proof. split; [done|]. intros d f k s. constructor. Qed.
Example C26_ex_contracts : (forall inst d f k, quiet (st_before (ex_strategies inst) d f k)) /\ (forall inst d f k, returns_only d f (st_before (ex_strategies inst) d f k)) /\
  (forall inst p d f k, st_data (ex_strategies inst) = Some p -> returns_only d f (p d f k)) /\ (forall inst, default_data (ex_strategies inst)).
Proof. split; [intros inst; apply flood_default|]. split; [intros inst d f k s; constructor|]. split; [done|]. intros inst. apply flood_default. Qed.
(** three downstreams ask for the same Data, one of them the ad hoc face 259; the Data comes from
    259: all are sent it; the same Data coming from 257 is not sent back there *)
Definition ex_n : name := [gc 1; gc 2].
Definition ex_wait : list event :=
  ex_faces ++ [EvFibAdd [gc 1] 258 0; EvInterest 256 (tokened 7 (ex_interest ex_n 1)); EvInterest 257 (tokened 8 (ex_interest ex_n 2)); EvInterest 259 (tokened 9 (ex_interest ex_n 3))].
Definition answers (l : list io) : list (N * option N) := omap (fun x => match x with Tx_data g _ tok => Some (g, tok) | _ => None end) l.
Example C27_ex :
  ex_holds (ex_wait ++ [EvData 259 (ex_data ex_n)]) (fun s => bool_decide (answers (fw_log s) = [(256, Some 7); (257, Some 8); (259, Some 9)]%N)) = true /\
  ex_holds (ex_wait ++ [EvData 257 (ex_data ex_n)]) (fun s => bool_decide (answers (fw_log s) = [(256, Some 7); (259, Some 9)]%N)) = true /\
  ex_holds (ex_wait ++ [EvTick (4000 * 1000000); EvData 259 (ex_data ex_n)]) (fun s => bool_decide (answers (fw_log s) = [])) = true.
Proof. by vm_compute. Qed.
(** When the Data satisfies several PIT entries the PIT tokens are not given back: the forwarder
    then sends the Data itself instead of asking the strategy. *)
Definition ex_wait2 : list event :=
  ex_faces ++ [EvFibAdd [gc 1] 258 0; EvInterest 256 (tokened 7 (ex_interest ex_n 1)); EvInterest 257 (tokened 8 (prefixed (ex_interest [gc 1] 2)))].
Theorem C27_token_many_refuted :
  ex_holds (ex_wait2 ++ [EvData 258 (ex_data ex_n)]) (fun s => bool_decide (answers (fw_log s) = [(257, None); (256, None)]%N)) = true.
Proof. by vm_compute. Qed.
(** unsolicited Data under each policy *)
Example C31_ex :
  ex_holds (ex_faces ++ [EvUnsol AdmitLocal; EvData 256 (ex_data ex_n)]) (fun s => bool_decide (length (Cs_Model.cs_table (fw_cs s)) = 1 /\ answers (fw_log s) = [])) = true /\
  ex_holds (ex_faces ++ [EvUnsol AdmitLocal; EvData 257 (ex_data ex_n)]) (fun s => bool_decide (length (Cs_Model.cs_table (fw_cs s)) = 0)) = true /\
  ex_holds (ex_faces ++ [EvUnsol AdmitNetwork; EvData 257 (ex_data ex_n)]) (fun s => bool_decide (length (Cs_Model.cs_table (fw_cs s)) = 1)) = true /\
  ex_holds (ex_faces ++ [EvData 257 (ex_data ex_n)]) (fun s => bool_decide (length (Cs_Model.cs_table (fw_cs s)) = 0)) = true.
Proof. by vm_compute. Qed.
(** a cached answer: only the second requester is answered from the cache, nothing goes upstream *)
Definition ex_cached : list event := ex_wait ++ [EvData 258 (ex_data ex_n); EvTick 1000; EvPitTimer (key_of (ex_interest ex_n 1))].
Example C32_ex :
  ex_holds ex_cached (fun s => match pit_at (fw_t s) (key_of (ex_interest ex_n 9)) with None => true | _ => false end &&
    Cs_Model.cs_serve (fw_cs s) && (0 <? Cs_Model.cs_limit (fw_cs s))%N && negb (Dnl_Model.dnl_has ex_hash (fw_dnl s) ex_n 9)) = true /\
  ex_holds (ex_cached ++ [EvInterest 257 (tokened 3 (ex_interest ex_n 9))]) (fun s => bool_decide (head (answers (fw_log s)) = Some (257, Some 3)%N /\ length (answers (fw_log s)) = 4 /\
    length (omap (fun x => match x with Tx_interest g _ => Some g | _ => None end) (fw_log s)) = 3)) = true.
Proof. by vm_compute. Qed.

Print Assumptions C26_accounted.
Print Assumptions C26_match.
Print Assumptions C26_not_back.
Print Assumptions C27_all.
Print Assumptions C27_token.
Print Assumptions C27_token_many_refuted.
Print Assumptions C31_unsolicited.
Print Assumptions C32_hit.
