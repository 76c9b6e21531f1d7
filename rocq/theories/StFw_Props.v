(** C63: the random strategy; the contracts of the forwarder's theorems, met by the strategies; examples. *)
From stdpp Require Import gmap.
From Verif Require Import Lib Name_Model Name_Proof Packet_Model Nt_Model Nt_Spec Tree_Model Tree_Proof Tab_Model Tab_Spec Tab_At Tab_Fib Tab_Pit Tab_Pit2 Tab_Sc Tab_Run Tab_Main Fw_Model Fw_Spec Fw_Inv Fw_Case Fw_Case2 Fw_Case3 Fw_Hist Fw_Acc Fw_Step Fw_Out Fw_Main Fw_Data Fw_Loop Fw_Ex Fib_Props FwScope_Props FwData_Props FwPit_Props FwFace_Props St_Model St_Retx St_Spec St_Dec St_Run St_At St_Best St_Multi St_Nack StBest_Props StMulti_Props.
From Verif Require Cs_Model Cs_Spec Cs_Main Dnl_Model.

Section props.
  Variable sort_nexthops : list nexthop -> list nexthop.
  Variable create_strategy : name -> create_result.
  Variable same_type : name -> name -> bool.
  Variable make_entry : name -> N -> Dnl_Model.fingerprint.
  Variable rand : nat -> nat.
  Variable face_order : list N -> list N.
  Variable strategies : name -> strategy.
  Notation step := (fw_step sort_nexthops create_strategy same_type make_entry rand face_order strategies).
  Notation reachable := (fw_reachable sort_nexthops create_strategy same_type make_entry rand face_order strategies).
  Hypothesis W : world_ok sort_nexthops same_type face_order.

  (** an Interest goes to exactly one of the nexthops it may go to; if there is none it is turned
      down as by best-route *)
  Theorem C63_random s f i s' inst order : reachable s -> reaches make_entry s f i inst -> strategies inst = random_strategy order ->
    step s (EvInterest f i) = Some s' ->
    exists hint l, hint_for s i hint /\ nexthops_for s hint (i_name i) l /\
      ((exists h, h ∈ l /\ may_go s f (i_name i) (nh_face h) /\ goes_on s s' f i (nh_face h)) \/
       ((forall h, h ∈ l -> ~ may_go s f (i_name i) (nh_face h)) /\
        (p2p_face s f -> exists j, one_hop i j /\ i_nonce j = i_nonce i /\ i_token j = i_token i /\ added s s' [Tx_nack f j 150; Rx_interest f i]) /\
        (~ p2p_face s f -> added s s' [Rx_interest f i]) /\
        exists e', pit_at (fw_t s') (key_of i) = Some e' /\ pe_timer e' = Some (now (fw_t s)))).
  Proof.
    intros Hr (Ho & Ht & Hnh & Hc & p & Hg) Hst H. destruct (at_strategy _ _ _ _ _ _ _ W s f i s' p inst Hr Ho H Ht Hnh Hc Hg) as (i3 & e & s3 & R & Hrun).
    rewrite Hst in Hrun. simpl in Hrun. unfold random_interest in Hrun. apply run_with in Hrun as (e0 & He0 & Hrun). rewrite (rd_at _ _ _ _ _ _ R) in He0. injection He0 as <-.
    destruct (lookup_fib s3 e) as [fe|] eqn:El; [|done].
    destruct (lookup_nexthops s3 e fe (rd_inv _ _ _ _ _ _ R) El) as [Hn Hok]. apply (nexthops_ext s) in Hn; [|apply R]. rewrite (rd_name _ _ _ _ _ _ R) in Hn.
    exists (i_hint (pe_interest e)), (fe_nexthops fe). split; [apply R|]. split; [done|].
    set (el := fun nh => next_hop_eligible (fw_faces s3) f i3 nh e None) in Hrun.
    assert (Hel : forall h, el h = true <-> may_go s f (i_name i) (nh_face h)) by (intros h; apply (ready_may_go s); [apply Ho|done]).
    destruct (List.filter el (fe_nexthops fe)) as [|h0 l0] eqn:Ef.
    - right. split; [intros h Hh Hm%Hel; assert (Hx : In h (List.filter el (fe_nexthops fe))) by (apply filter_In; split; [by apply elem_of_list_In|done]); by rewrite Ef in Hx|].
      eapply (run_reject _ _ s) in Hrun as (A1 & A2 & _ & A3); [|exact R|done|apply did_refl; apply R|done]. done.
    - left. cbn [run] in Hrun. apply bind_Some in Hrun as (s4 & x & Hx & Hrun).
      set (h := nth (x mod length (h0 :: l0)) (h0 :: l0) h0) in *.
      assert (Hin : In h (List.filter el (fe_nexthops fe))) by (rewrite Ef; apply nth_In; apply Nat.mod_upper_bound; done).
      apply filter_In in Hin as [Hin Hm]. exists h. split; [by apply elem_of_list_In|]. split; [by apply Hel|].
      assert (D : did (key_of i) e e [] s3 s4).
      { injection Hx as <- _. pose proof (did_refl _ _ _ (rd_inv _ _ _ _ _ _ R) (rd_at _ _ _ _ _ _ R)) as [_ _ D2 _]. split; [apply Inv_rand, R|by split|exact D2|done]. }
      eapply (run_last_interest rand face_order s) in Hrun as (j & tx & A1 & A2 & A3 & A4 & A5 & _); [|exact R|apply Ho|done|exact D]. by exists j, tx.
  Qed.

  (** An Interest that loops, under a name whose strategy is best-route or random, is answered with a Nack of reason Duplicate over a
      point-to-point link, and with nothing over another; by multicast it is never answered *)
  Theorem C28_answer s f i s' p inst order c : reachable s -> ev_ok s (EvInterest f i) -> step s (EvInterest f i) = Some s' ->
    i_hop i <> Some 0%N -> (localhost (i_name i) -> local_face s f) ->
    Dnl_Model.dnl_has make_entry (fw_dnl s) (i_name i) (i_nonce i) = true \/ looping s f i ->
    governs (fun m => sc_at (fw_t s) m) (i_name i) p inst ->
    (strategies inst = best_route order c \/ strategies inst = random_strategy order ->
       (p2p_face s f -> exists j, one_hop i j /\ i_nonce j = i_nonce i /\ i_token j = i_token i /\ added s s' [Tx_nack f j 100; Rx_interest f i]) /\
       (~ p2p_face s f -> added s s' [Rx_interest f i])) /\
    (strategies inst = multicast c -> added s s' [Rx_interest f i]).
  Proof.
    intros R Ho H Hh Hs Hl Hg. destruct (loop_exact _ _ _ _ _ _ _ s f i s' p inst (proj1 (reachable_inv _ _ _ _ _ _ _ W _ R)) Ho H Hh Hs Hl Hg) as [H1 H2]. split.
    - intros Hst. assert (st_loop_nack (strategies inst) = true) by (by destruct Hst as [-> | ->]). split; [intros Hp; by apply H1|intros Hp; apply H2; by left].
    - intros Hst. apply H2. right. by rewrite Hst.
  Qed.
End props.

(** ** The contracts that the forwarder's theorems ask for *)
Lemma get_key k T e : pit_get k T = Some e -> pit_at T k = Some e /\ pe_key e = k.
Proof.
  intros H. split; [done|]. unfold pit_get in H. destruct (tr T !! _); [|done]. apply List.find_some in H as [_ H]. symmetry. by apply keyb_eq.
Qed.
Lemma obeys_with (R : fw -> Prop) (K : fw -> act -> Prop) s k q : (forall s' e, R s' -> pit_get k (fw_t s') = Some e -> obeys R K s' (q s' e)) -> obeys R K s (with_entry k q).
Proof. intros H. constructor. intros s' Hs'. destruct (pit_get k (fw_t s')) eqn:E; [by apply H|constructor]. Qed.
Lemma obeys_nacks R (K : fw -> act -> Prop) s reason l q : (forall s f, K s (ANack reason f)) -> obeys R K s q -> obeys R K s (nack_each reason l q).
Proof. intros H Hq. induction l; simpl; [done|]. by constructor. Qed.
Lemma obeys_process R (K : fw -> act -> Prop) s order k : (forall s r f, K s (ANack r f)) -> obeys R K s (process_nack order k).
Proof.
  intros H. constructor. intros s' _. destruct (pit_get k (fw_t s')) as [e|]; [|constructor]. destruct (nack_scan _ _ _ _) as [[n last] least].
  assert (Hw : obeys R K s' (if (0 <? n)%nat then PDone else send_nacks order least e)) by (destruct (_ <? _)%nat; [constructor|]; apply obeys_nacks; [intros; apply H|constructor]).
  destruct (n =? 1)%nat; [|done]. destruct last as [f|]; [|constructor]. destruct (find_in f (pe_in e)); [|done]. constructor; [apply H|constructor].
Qed.
(** what best-route, multicast and random do on an Interest *)
Section interest.
  Variables (R : fw -> Prop) (K : fw -> act -> Prop) (i : interest) (f : N) (k : pit_key).
  Hypothesis Hi : forall s nh e w, R s -> next_hop_eligible (fw_faces s) f i nh e w = true -> K s (AInterest Trigger None false (nh_face nh)).
  Hypothesis Hn : forall s r g, K s (ANack r g).
  Lemma obeys_best c s : (forall s, K s (ATimer 0)) -> obeys R K s (best_route_interest c i f k).
  Proof.
    intros Ht. apply obeys_with. intros s' e Hs He. destruct (decide_per_pit _ _ _) as [[dec si]|]; [|constructor].
    assert (Hset : forall q, obeys R K s' q -> obeys R K s' (set_info si q)) by (intros q Hq; destruct si; [by constructor|done]). apply Hset.
    assert (Hs1 : forall nh w, next_hop_eligible (fw_faces s') f i nh e w = true -> obeys R K s' (PInterest Trigger None false (nh_face nh) (fun _ => PDone))) by (intros nh w H; constructor; [by eapply Hi|constructor]).
    destruct dec; [| |constructor]; (destruct (lookup_fib s' e) as [fe|]; [|constructor]).
    - cbv zeta. destruct (List.find _ _) as [nh|] eqn:E; [apply List.find_some in E as [_ E]; by eapply Hs1|]. constructor; [apply Hn|]. constructor; [apply Ht|constructor].
    - cbv zeta. destruct (List.find _ _) as [nh|] eqn:E; [apply List.find_some in E as [_ E]; by eapply Hs1|].
      pose proof (earliest_spec (fw_faces s') f i e (fe_nexthops fe) None) as He'. destruct (earliest_out _ _ _ _ _ _) as [[nh|]|]; [|constructor|constructor].
      destruct He' as (t & [?|(_ & Hel & _)] & _); [done|]. by eapply Hs1.
  Qed.
  Lemma obeys_multi c s : obeys R K s (multicast_interest c i f k).
  Proof.
    apply obeys_with. intros s1 e1 Hs1 He1. destruct (lookup_fib s1 e1) as [fe|]; [|constructor]. generalize (fe_nexthops fe) as l. intros l. revert s1 Hs1 e1 He1. induction l as [|nh l IH]; intros s1 Hs1 e1 He1; [constructor|].
    apply obeys_with. intros s2 e2 Hs2 He2. destruct (decide_per_upstream _ _ _ _) as [[dec si]|]; [|constructor].
    assert (Hset : forall q, obeys R K s2 q -> obeys R K s2 ((match si with Some si => POutInfo (nh_face nh) si | None => fun q => q end) q)) by (intros q Hq; destruct si; [by constructor|done]). apply Hset.
    pose proof (IH s2 Hs2 e2 He2) as Hnext.
    destruct dec; [| |done]; (destruct (next_hop_eligible _ _ _ _ _ _) eqn:E; simpl; [|done]); (constructor; [by eapply Hi|]); intros b; [done|]. destruct b; [|done].
    apply obeys_with. intros s3 e3 Hs3 He3. destruct (find_out _ _); [|constructor]. destruct (increment_interval _ _); [|constructor]. constructor. by eapply IH.
  Qed.
  Lemma obeys_random s : (forall s, K s (ATimer 0)) -> obeys R K s (random_interest i f k).
  Proof.
    intros Ht. apply obeys_with. intros s' e Hs He. destruct (lookup_fib s' e) as [fe|]; [|constructor].
    destruct (List.filter _ _) as [|h0 l0] eqn:Ef; [constructor; [apply Hn|]; constructor; [apply Ht|constructor]|].
    constructor. intros x. constructor; [|constructor]. set (h := nth _ _ _).
    assert (Hin : In h (List.filter (fun nh => next_hop_eligible (fw_faces s') f i nh e None) (fe_nexthops fe))) by (rewrite Ef; apply nth_In; apply Nat.mod_upper_bound; done).
    apply filter_In in Hin as [_ Hm]. by eapply Hi.
  Qed.
End interest.
(** they respect scope ... *)
Theorem C24_strategies order c : scoped (best_route order c) /\ scoped (multicast c) /\ scoped (random_strategy order).
Proof.
  assert (Hi : forall F i f s (nh : nexthop) e w, sees F s -> next_hop_eligible (fw_faces s) f i nh e w = true -> scope_ok F f (i_name i) (nh_face nh)) by (intros F i f s nh e w [<- _] H; by eapply eligible_scope).
  split; [|split]; (split; [|intros F d f k s _; constructor|done| | |intros F a k s _; constructor]).
  - intros F i f k s _. apply obeys_best; [|done|done]. intros s' nh e w. by eapply Hi.
  - intros F i r f k s _. by apply obeys_process.
  - intros F nh k s _. constructor.
  - intros F i f k s _. apply obeys_multi. intros s' nh e w. by eapply Hi.
  - intros F i r f k s _. constructor.
  - intros F nh k s _. apply obeys_with. intros s' e [HF _] He. apply get_key in He as [He Hk]. destruct (List.find _ _) as [r|] eqn:E; [|constructor]. apply List.find_some in E as [Hin E].
    constructor; [|intros _; constructor]. exists (fr_face (ir_rec r)), r. split; [exists e; split; [done|]; split; [by apply elem_of_list_In|done]|]. apply eligible_scope in E. rewrite HF in E. by rewrite <- Hk.
  - intros F i f k s _. apply obeys_random; [|done|done]. intros s' nh e w. by eapply Hi.
  - intros F i r f k s _. by apply obeys_process.
  - intros F nh k s _. constructor.
Qed.
(** ... leave returning Data to the forwarder ... *)
Theorem C27_strategies order c : default_data (best_route order c) /\ default_data (multicast c) /\ default_data (random_strategy order).
Proof. split; [|split]; (split; [done|]); intros d f k s; constructor. Qed.
(** ... and do not touch the expiry timers, but to let entries expire at once; multicast never does *)
Theorem C29_strategies order c : patient True (best_route order c) /\ patient False (multicast c) /\ patient True (random_strategy order).
Proof.
  split; [|split]; (split; [|intros d f k s; constructor|done| | |intros a k s; constructor]).
  - intros i f k s. by apply obeys_best.
  - intros i r f k s. by apply obeys_process.
  - intros nh k s. constructor.
  - intros i f k s. by apply obeys_multi.
  - intros i r f k s. constructor.
  - intros nh k s. apply obeys_with. intros s' e _ _. destruct (List.find _ _); [|constructor]. constructor; [done|]. intros _. constructor.
  - intros i f k s. by apply obeys_random.
  - intros i r f k s. by apply obeys_process.
  - intros nh k s. constructor.
Qed.

(** ** Cases that meet the hypotheses *)
(** a history in which every Interest goes to strategy [st] *)
Definition st_after (st : strategy) (evs : list event) : option fw := ex_start ex_create (fun _ => st) [] evs.
Definition st_holds (st : strategy) (evs : list event) (P : fw -> bool) : bool := match st_after st evs with Some s => P s | None => false end.
Notation st_reachable st := (fw_reachable isort ex_create name_eqb ex_hash ex_rand ex_order (fun _ => st)).
Definition reachesb (s : fw) (f : N) (i : interest) : bool :=
  ev_okb s (EvInterest f i) && negb (bool_decide (i_hop i = Some 0%N)) && negb (is_localhost (i_name i)) &&
  negb (Dnl_Model.dnl_has ex_hash (fw_dnl s) (i_name i) (i_nonce i)) &&
  match pit_at (fw_t s) (key_of i) with
  | Some e => forallb (fun r => negb (fr_nonce (ir_rec r) =? i_nonce i)%N) (pe_in e) && forallb (fun r => negb (fr_nonce (or_rec r) =? i_nonce i)%N) (pe_out e)
  | None => true
  end && bool_decide (i_nexthop i = None) && match Cs_Model.cs_table (fw_cs s) with [] => true | _ => false end.
Lemma reachesb_ok s f i : Inv s -> reachesb s f i = true -> exists inst, reaches ex_hash s f i inst.
Proof.
  intros I. unfold reachesb. rewrite !andb_true_iff, !negb_true_iff. intros [[[[[[H1 H2] H3] H4] H5] H6] H7].
  destruct (effective (i_name i) (fw_t s)) as [[p inst]|] eqn:Ee.
  - exists inst. split; [by apply ev_okb_ok|]. split; [|split; [by apply bool_decide_eq_true in H6|split; [|exists p; by apply effective_ok; [apply I|]]]].
    + split; [done|]. split; [done|]. apply bool_decide_eq_false in H2. split; [done|]. split; [intros Hl%is_localhost_spec; congruence|]. split; [done|].
      intros [[(g & r & (e & He & Hr & _) & Hn)|(g & r & (e & He & Hr & _) & Hn)] _]; rewrite He in H5; apply andb_prop in H5 as [H5 H8]; rewrite forallb_forall in H5, H8.
      * apply elem_of_list_In, H5 in Hr. rewrite Hn, N.eqb_refl in Hr. done.
      * apply elem_of_list_In, H8 in Hr. rewrite Hn, N.eqb_refl in Hr. done.
    + right. intros d (e & He & _). destruct (Cs_Model.cs_table (fw_cs s)); [by apply elem_of_nil in He|done].
  - exfalso. destruct (effective_total (i_name i) (fw_t s)) as (? & ? & ?); [apply I|apply I|congruence].
Qed.

(** the nexthops of /1 are 257, of cost 20, and 258, of cost 10; the client 256 asks four times *)
Definition st_evs : list event := ex_faces ++ [EvFibAdd [gc 1] 257 20; EvFibAdd [gc 1] 258 10].
Definition ask (nonce : N) : event := EvInterest 256 (ex_interest ex_n nonce).
Definition ms (x : Z) : event := EvTick (x * 1000000).
Definition st_out (s : fw) : list (N * N) := rev (sent_to (fw_log s)).
Definition asks_of (st : strategy) (evs : list event) (nonce : N) : bool := st_holds st evs (fun s => reachesb s 256 (ex_interest ex_n nonce)).
(** to the cheapest; suppressed; the other nexthop, after 10 ms; then, after 20 ms, the one used
    longest ago, but not before that *)
Definition br_evs : list event := st_evs ++ [ask 1; ms 9; ask 2; ms 1; ask 3; ms 19; ask 4; ms 1].
Example C36_ex : let st := best_route id retx_default in
  st_holds st (st_evs ++ [ask 1]) (fun s => bool_decide (st_out s = [(1, 258)%N])) = true /\
  st_holds st (st_evs ++ [ask 1; ms 9; ask 2]) (fun s => bool_decide (st_out s = [(1, 258)%N])) = true /\
  st_holds st (st_evs ++ [ask 1; ms 9; ask 2; ms 1; ask 3]) (fun s => bool_decide (st_out s = [(1, 258); (1, 257)]%N)) = true /\
  st_holds st (br_evs ++ [ask 5]) (fun s => bool_decide (st_out s = [(1, 258); (1, 257); (1, 258)]%N)) = true /\
  (* no route: a Nack *)
  st_holds st (ex_faces ++ [ask 1]) (fun s => bool_decide (nacks (fw_log s) = [(256, 150)%N])) = true.
Proof. by vm_compute. Qed.
Example C36_ex_reach : let st := best_route id retx_default in
  asks_of st st_evs 1 && asks_of st (st_evs ++ [ask 1; ms 9]) 2 && asks_of st (st_evs ++ [ask 1; ms 9; ask 2; ms 1]) 3 && asks_of st br_evs 5 = true.
Proof. by vm_compute. Qed.
(** asks_of means what the theorems ask for *)
Lemma asks_of_ok st evs nonce : asks_of st evs nonce = true -> exists s inst, st_after st evs = Some s /\ st_reachable st s /\ reaches ex_hash s 256 (ex_interest ex_n nonce) inst.
Proof.
  unfold asks_of, st_holds. destruct (st_after st evs) as [s|] eqn:E; [|done]. intros H. assert (R : st_reachable st s) by (by eapply ex_reach).
  apply reachesb_ok in H as (inst & H); [by exists s, inst|]. by destruct (reachable_inv _ _ _ _ _ _ _ ex_world _ R).
Qed.
(** multicast: both nexthops; suppressed for each on its own: 257 is added 9 ms after 258 *)
Definition mc_evs : list event := ex_faces ++ [EvFibAdd [gc 1] 258 10; ask 1; ms 9; EvFibAdd [gc 1] 257 20; ms 1].
Example C37_ex : let st := multicast retx_default in
  st_holds st (st_evs ++ [ask 1]) (fun s => bool_decide (st_out s = [(1, 258); (1, 257)]%N)) = true /\
  st_holds st mc_evs (fun s => bool_decide (st_out s = [(1, 258); (1, 257)]%N)) = true /\
  st_holds st (mc_evs ++ [ask 2]) (fun s => bool_decide (st_out s = [(1, 258); (1, 257); (1, 258)]%N)) = true /\
  st_holds st (mc_evs ++ [ask 2; ms 9; ask 3]) (fun s => bool_decide (st_out s = [(1, 258); (1, 257); (1, 258); (1, 257)]%N)) = true /\
  asks_of st st_evs 1 && asks_of st (mc_evs ++ [ask 2; ms 9]) 3 = true.
Proof. by vm_compute. Qed.
(** C39: the clients 256 and 259 (ad hoc) have asked; the Interest went to 258 and, retransmitted,
    to 257.  The first Nack is kept; after the second 256 is told the least severe reason *)
Definition nk_evs : list event := st_evs ++ [ask 1; EvInterest 259 (ex_interest ex_n 2); ms 10; ask 3].
Definition nk (f nonce reason : N) : event := EvNack f (ex_interest ex_n nonce) reason.
Example C39_ex : let st := best_route id retx_default in
  st_holds st (nk_evs ++ [nk 258 1 150]) (fun s => bool_decide (nacks (fw_log s) = [])) = true /\
  st_holds st (nk_evs ++ [nk 258 1 50; nk 257 3 150]) (fun s => bool_decide (nacks (fw_log s) = [(256, 50)%N])) = true /\
  st_holds st (nk_evs ++ [nk 258 1 150; nk 257 3 7]) (fun s => bool_decide (nacks (fw_log s) = [(256, 150)%N])) = true /\
  (* not the nonce that was sent there *)
  st_holds st (nk_evs ++ [nk 258 1 150; nk 257 1 7]) (fun s => bool_decide (nacks (fw_log s) = [])) = true /\
  (* 257 has not answered and is also a downstream: the other one is told, who then may answer *)
  st_holds st (st_evs ++ [ask 1; ms 10; ask 3; EvInterest 257 (ex_interest ex_n 9); nk 258 1 100]) (fun s => bool_decide (nacks (fw_log s) = [(257, 100)%N])) = true.
Proof. by vm_compute. Qed.
Example C63_ex : let st := random_strategy id in
  st_holds st (st_evs ++ [ask 1; ask 2]) (fun s => bool_decide (st_out s = [(1, 258); (1, 258)]%N)) = true /\ asks_of st (st_evs ++ [ask 1]) 2 = true.
Proof. by vm_compute. Qed.
Print Assumptions C63_random.
Print Assumptions C28_answer.
Print Assumptions C24_strategies.
Print Assumptions C27_strategies.
Print Assumptions C29_strategies.
