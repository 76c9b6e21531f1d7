(** Property C28, continued: exactly which Nonces go into the dead nonce list, and when *)
From stdpp Require Import gmap.
From Verif Require Import Lib Name_Model Packet_Model Nt_Model Nt_Spec Tree_Model Tab_Model Tab_Spec Tab_At Tab_Pit Fw_Model Fw_Spec Fw_Inv Fw_Case Fw_Case2 Fw_Case3 Fw_Hist Fw_Acc Fw_Step Fw_Out Fw_Main Fw_Data Fw_Timer Fw_Calm Fw_Last Fw_Ex Fw_Dead Fib_Props FwData_Props FwPit_Props.
From Verif Require Cs_Model Cs_Spec Dnl_Model Dnl_Spec Dnl_Proof.

(** the FreshnessPeriod is below 6 s *)
Theorem C28_brief ms : (0 <= ms <= 9223372036854)%Z -> brief ms <-> (ms < 6000)%Z.
Proof. apply brief_small. Qed.
(** beyond 292 years the period overflows as nanoseconds, and what lasts almost forever counts as short-lived *)
Theorem C28_brief_refuted : exists ms, (6000 <= ms)%Z /\ brief ms.
Proof. exists 9223372036855%Z. split; [lia|]. by vm_compute. Qed.

Section props.
  Variable sort_nexthops : list nexthop -> list nexthop.
  Variable create_strategy : name -> create_result.
  Variable same_type : name -> name -> bool.
  Variable make_entry : name -> N -> Dnl_Model.fingerprint.
  Variable rand : nat -> nat.
  Variable face_order : list N -> list N.
  Variable strategies : name -> strategy.
  Notation step := (fw_step sort_nexthops create_strategy same_type make_entry rand face_order strategies).
  Notation reachable := (fw_reachable sort_nexthops create_strategy same_type make_entry rand face_order strategies).
  Hypothesis W : world_ok sort_nexthops same_type face_order.
  Notation inv_of R := (proj1 (reachable_inv _ _ _ _ _ _ _ W _ R)).

  (** Data that arrives: the Nonces sent on that face for the PIT entries it satisfies, if the entry asks for fresh Data and the
      Data is fresh for less than the 6 s a Nonce stays dead (a cache upstream could answer a looping copy later on); none else *)
  Theorem C28_data s f d s' : (forall inst, default_data (strategies inst)) -> reachable s -> ev_ok s (EvData f d) -> step s (EvData f d) = Some s' ->
    exists l, buried make_entry l (fw_dnl s) (fw_dnl s') /\ (forall n x, (n, x) ∈ l <-> dies s f d n x) /\
      (length l <= 1024 -> forall n x, dies s f d n x -> Dnl_Model.dnl_has make_entry (fw_dnl s') n x = true).
  Proof.
    intros Hp R Ho H. eapply data_dead in H as (l & Hb & Hl); [|exact W|done|apply (inv_of R)|done]. exists l. split; [done|]. split; [done|]. intros Hlen n x Hd%Hl.
    destruct (reachable_dnl sort_nexthops create_strategy same_type make_entry rand face_order strategies W s R) as [h Hh]. by eapply buried_has.
  Qed.
  (** a PIT entry that goes away: all Nonces sent for it if it is not satisfied, or if it asks for fresh Data and the Data that
      satisfied it last is fresh for less than 6 s; else none *)
  Theorem C28_timer s k s' : reachable s -> step s (EvPitTimer k) = Some s' -> exists e, pit_at (fw_t s) k = Some e /\
    ((pe_satisfied e = false \/ pk_mbf k = true /\ brief (pe_fresh e)) -> buried make_entry (pair (pk_name k) <$> ((fun r => fr_nonce (or_rec r)) <$> pe_out e)) (fw_dnl s) (fw_dnl s')) /\
    (pe_satisfied e = true -> ~ (pk_mbf k = true /\ brief (pe_fresh e)) -> fw_dnl s' = fw_dnl s).
  Proof.
    intros R H. eapply timer_dead in H as (e & He & Hb); [|apply (inv_of R)]. exists e. split; [done|]. split.
    - intros Hs. rewrite decide_False in Hb; [done|]. intros [H1 H2]. destruct Hs as [?|?]; [congruence|done].
    - intros H1 H2. rewrite decide_True in Hb by done. by destruct Hb as (t & -> & ->%Forall2_nil_inv_l).
  Qed.
  Theorem C28_fresh s f d s' k e' : reachable s -> ev_ok s (EvData f d) -> step s (EvData f d) = Some s' ->
    takes_data s (EvData f d) k -> is_Some (pit_at (fw_t s) k) -> pit_at (fw_t s') k = Some e' -> pe_satisfied e' = true /\ pe_fresh e' = d_fresh d.
  Proof. intros R. eapply data_fresh; [exact W|apply (inv_of R)]. Qed.
  (** apart from these events, and from the two timers of the list itself, the list does not change *)
  Theorem C28_else s ev s' : step s ev = Some s' -> (forall f d, ev <> EvData f d) -> (forall k, ev <> EvPitTimer k) ->
    fw_dnl s' = match ev with EvDnlMark => Dnl_Model.dnl_mark (fw_dnl s) | EvDnlAdjust => Dnl_Model.dnl_adjust (fw_dnl s) | _ => fw_dnl s end.
  Proof.
    intros H Hd Ht. destruct ev; try (by eapply event_keeps; [|exact H]; intros []); try (by edestruct Hd); try (by edestruct Ht).
    - by eapply mark_exact.
    - by eapply adjust_exact.
  Qed.
End props.

(** ** Cases that meet the hypotheses *)
Example C28_ex_default : forall inst, default_data (ex_strategies inst).
Proof. intros inst. apply flood_default. Qed.
(** Interest and Data that ask for fresh Data and are fresh for [ms] *)
Definition ex_fresh (n : name) (nonce : N) : interest := Interest n false true nonce 4000 None [] None None false.
Definition ex_lasting (n : name) (ms : Z) : data := Data n (replicate 32 7%N) ms false 0.
Definition ex_dead (ev : list event) (a b : bool) : bool :=
  ex_holds (ex_faces ++ [EvFibAdd [gc 1] 258 0; EvInterest 257 (ex_fresh ex_n 1); EvInterest 259 (ex_interest ex_n 2)] ++ ev)
    (fun s => Bool.eqb (Dnl_Model.dnl_has ex_hash (fw_dnl s) ex_n 1) a && Bool.eqb (Dnl_Model.dnl_has ex_hash (fw_dnl s) ex_n 2) b).
(** two PIT entries, one for fresh Data *)
Example C28_ex_data :
  ex_dead [] false false = true /\
  ex_dead [EvData 258 (ex_lasting ex_n 5999)] true false = true /\
  ex_dead [EvData 258 (ex_lasting ex_n 6000)] false false = true /\
  (* it comes over another link than the Interest went *)
  ex_dead [EvData 257 (ex_lasting ex_n 5999)] false false = true /\
  ex_dead [EvData 257 (ex_lasting ex_n 5999); EvPitTimer (key_of (ex_fresh ex_n 1))] true false = true /\
  ex_dead [EvData 257 (ex_lasting ex_n 6000); EvPitTimer (key_of (ex_fresh ex_n 1)); EvPitTimer (key_of (ex_interest ex_n 2))] false false = true /\
  ex_dead [EvTick 4000000000; EvPitTimer (key_of (ex_interest ex_n 2))] false true = true.
Proof. by vm_compute. Qed.
Print Assumptions C28_brief.
Print Assumptions C28_brief_refuted.
Print Assumptions C28_data.
Print Assumptions C28_timer.
Print Assumptions C28_fresh.
Print Assumptions C28_else.
