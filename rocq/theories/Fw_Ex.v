(** A small concrete world, used to show that the hypotheses of the forwarder's theorems are met *)
From stdpp Require Import gmap.
From Verif Require Import Lib Name_Model Name_Proof Packet_Model Nt_Model Nt_Spec Nt_Tree Tree_Model Tree_Proof Tab_Model Tab_Spec Tab_At Tab_Main Fw_Model Fw_Spec Fw_Inv Fw_Main Fib_Props.
From Verif Require Cs_Model Cs_Spec Dnl_Model.

(** sends a received Interest to every eligible nexthop *)
Definition flood_to (F : gmap N face) (i : interest) (f : N) (e : pit_entry) (l : list nexthop) : sprog :=
  foldr (fun nh p => if next_hop_eligible F f i nh e None then PInterest Trigger None false (nh_face nh) (fun _ => p) else p) PDone l.
Definition flood : strategy :=
  Strategy true
    (fun i f k => PRead (fun s => match pit_get k (fw_t s) with
       | Some e => match lookup_fib s e with Some fe => flood_to (fw_faces s) i f e (fe_nexthops fe) | None => PDone end
       | None => PDone
       end))
    (fun _ _ _ => PDone) None
    (fun _ r f k => PRead (fun s => match pit_get k (fw_t s) with
       | Some e => match pe_in e with x :: _ => PNack r (fr_face (ir_rec x)) PDone | [] => PDone end
       | None => PDone
       end))
    (fun _ _ => PDone) (fun _ _ => PDone).
Definition ex_strategies (inst : name) : strategy := flood.
Definition ex_create (n : name) : create_result := Created n.
Definition ex_hash (n : name) (nonce : N) : Dnl_Model.fingerprint := (nonce + 1)%N.
Definition ex_order (l : list N) : list N := l.
Definition ex_rand (n : nat) : nat := 0.
Lemma ex_world : world_ok isort name_eqb ex_order.
Proof. split; [exact isort_ok|exact name_eqb_refl|done]. Qed.

(** flood respects scope, and is what other contracts ask for *)
Lemma eligible_scope F f i nh e w : next_hop_eligible F f i nh e w = true -> scope_ok F f (i_name i) (nh_face nh).
Proof.
  unfold next_hop_eligible. destruct (F !! f) as [infc|] eqn:Ef; [|done]. destruct (F !! nh_face nh) as [outfc|] eqn:Eg; [|done].
  destruct (_ || would_violate_scope infc i outfc) eqn:E; [done|]. apply orb_false_iff in E as [_ E]. intros _. unfold would_violate_scope in E.
  destruct (fc_local outfc) eqn:El; [split; [intros _; by exists outfc|intros _; right; by exists outfc]|].
  destruct (is_localhost (i_name i)) eqn:E1; [done|]. split; [intros H%is_localhost_spec; congruence|].
  intros H%is_localhop_spec. rewrite H in E. left. exists infc. split; [done|]. by destruct (fc_local infc).
Qed.
Lemma flood_scoped : scoped flood.
Proof.
  split; intros; intros s Hs; try discriminate; try (by constructor).
  - constructor. intros s' [Hs' _]. destruct (pit_get k (fw_t s')) as [e|]; [|constructor]. destruct (lookup_fib s' e) as [fe|]; [|constructor]. rewrite Hs'.
    induction (fe_nexthops fe) as [|nh l IH]; simpl; [constructor|]. destruct (next_hop_eligible F f i nh e None) eqn:E; [|done].
    constructor; [by eapply eligible_scope|by intros _].
  - constructor. intros s' Hs'. destruct (pit_get k (fw_t s')) as [e|]; [|constructor]. destruct (pe_in e); repeat constructor.
Qed.

(** ** Running a history *)
Global Instance interest_eq_dec : EqDecision interest.
Proof. solve_decision. Defined.
Global Instance data_eq_dec : EqDecision data.
Proof. solve_decision. Defined.
Global Instance io_eq_dec : EqDecision io.
Proof. solve_decision. Defined.
Global Instance comp_valid_dec c : Decision (comp_valid c).
Proof. unfold comp_valid. apply _. Defined.
Global Instance name_valid_dec n : Decision (name_valid n).
Proof. unfold name_valid. apply _. Defined.
Global Instance data_wf_dec d : Decision (Cs_Spec.data_wf d).
Proof. unfold Cs_Spec.data_wf. apply _. Defined.
Definition ev_okb (s : fw) (ev : event) : bool :=
  match ev with
  | EvInterest f i => bool_decide (is_Some (fw_faces s !! f)) && (0 <=? i_lifetime i)%Z && bool_decide (name_valid (i_name i))
  | EvData f d => bool_decide (is_Some (fw_faces s !! f)) && bool_decide (Cs_Spec.data_wf d) && (0 <=? d_fresh d)%Z
  | EvNack f i r => bool_decide (is_Some (fw_faces s !! f))
  | EvPitTimer k => match pit_at (fw_t s) k with
                    | Some e => match pe_timer e with Some t => (t <=? now (fw_t s))%Z | None => false end
                    | None => false
                    end
  | EvAsync _ _ _ | EvFibAdd _ _ _ | EvFibRemove _ _ | EvStrategySet _ _ | EvFaceAdd _ | EvRegions _ | EvUnsol _ | EvHop _ | EvDnlMark | EvDnlAdjust => true
  | EvStrategyUnset p => match p with [] => false | _ => true end
  | EvFaceAddReserved _ id => negb (id =? INVALID_FACEID)%N
  | EvFaceRemove f => bool_decide (is_Some (fw_faces s !! f))
  | EvCs _ => false
  | EvTick d => (0 <=? d)%Z
  end.
Lemma ev_okb_ok s ev : ev_okb s ev = true -> ev_ok s ev.
Proof.
  destruct ev; simpl; try done.
  - intros [[H1 H2]%andb_prop H3]%andb_prop. apply bool_decide_eq_true in H1, H3. split; [done|]. split; [lia|done].
  - intros [[H1 H2]%andb_prop H3]%andb_prop. apply bool_decide_eq_true in H1, H2. split; [done|]. split; [done|lia].
  - apply bool_decide_eq_true.
  - destruct (pit_at (fw_t s) k) as [e|]; [|done]. destruct (pe_timer e) as [t|] eqn:E; [|done]. intros H. exists e, t. split; [done|]. split; [done|lia].
  - by destruct p.
  - intros H ->. done.
  - apply bool_decide_eq_true.
  - lia.
Qed.

Section run.
  Variable create_strategy : name -> create_result.
  Variable strategies : name -> strategy.
  Notation ev_step := (fw_step isort create_strategy name_eqb ex_hash ex_rand ex_order strategies).
  Fixpoint fw_run (evs : list event) (s : fw) : option fw :=
    match evs with
    | [] => Some s
    | ev :: evs' => if ev_okb s ev then match ev_step s ev with Some s' => fw_run evs' s' | None => None end else None
    end.
  Definition ex_start (def : name) (evs : list event) : option fw :=
    match fw_new create_strategy def 100 with Some s => fw_run evs s | None => None end.
  Notation reach P := (fw_reachable_if isort create_strategy name_eqb ex_hash ex_rand ex_order strategies P).
  Lemma fw_run_reach P evs s s' : Forall P evs -> reach P s -> fw_run evs s = Some s' -> reach P s'.
  Proof.
    revert s. induction evs as [|ev evs IH]; intros s HP R; simpl; [by intros [= <-]|]. apply Forall_cons in HP as [H1 H2].
    destruct (ev_okb s ev) eqn:E; [|done]. destruct (ev_step s ev) as [s1|] eqn:Es; [|done].
    apply IH; [done|]. eapply fw_if_step; [done|by apply ev_okb_ok|done|done].
  Qed.
  Lemma ex_start_reach P def evs s : Forall P evs -> ex_start def evs = Some s -> reach P s.
  Proof.
    unfold ex_start. destruct (fw_new create_strategy def 100) as [s0|] eqn:E; [|done]. intros HP. apply fw_run_reach; [done|]. by eapply fw_if_new.
  Qed.
  Lemma ex_reach def evs s : ex_start def evs = Some s -> fw_reachable isort create_strategy name_eqb ex_hash ex_rand ex_order strategies s.
  Proof. intros H. eapply (if_reachable _ _ _ _ _ _ _ (fun _ => True)). eapply ex_start_reach; [|exact H]. apply Forall_true. done. Qed.
End run.
(** the example world with the flooding strategy everywhere *)
Notation ex_after evs := (ex_start ex_create ex_strategies [] evs).
Notation ex_step := (fw_step isort ex_create name_eqb ex_hash ex_rand ex_order ex_strategies).
Notation ex_reachable := (fw_reachable isort ex_create name_eqb ex_hash ex_rand ex_order ex_strategies).
Notation ex_reachable_if := (fw_reachable_if isort ex_create name_eqb ex_hash ex_rand ex_order ex_strategies).

(** faces 256 (local), 257 and 258 (not local, point-to-point), 259 (not local, ad hoc) *)
Definition ex_faces : list event :=
  [EvFaceAdd (Face true LINK_P2P); EvFaceAdd (Face false LINK_P2P); EvFaceAdd (Face false LINK_P2P); EvFaceAdd (Face false LINK_AD_HOC)].
Definition gc (k : N) : comp := (8, [k])%N.
Definition ex_interest (n : name) (nonce : N) : interest := Interest n false false nonce 4000 None [] None None false.
Definition ex_data (n : name) : data := Data n (replicate 32 7%N) 1000 false 0.
(** something about the state that a history leads to *)
Definition ex_holds (evs : list event) (P : fw -> bool) : bool := match ex_after evs with Some s => P s | None => false end.
Lemma ex_holds_ok evs (P : fw -> bool) : ex_holds evs P = true -> exists s, ex_after evs = Some s /\ ex_reachable s /\ P s = true.
Proof. unfold ex_holds. destruct (ex_after evs) as [s|] eqn:E; [|done]. intros H. exists s. split; [done|]. split; [by eapply ex_reach|done]. Qed.
