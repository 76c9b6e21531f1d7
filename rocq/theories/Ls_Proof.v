(** Invariants of the link service. *)
From stdpp Require Import gmap.
From Verif Require Import Lib Lp_Model Lp_Frag Rel_Model Rel_Spec Rel_Win Rel_Inv Rel_Step Ls_Model Ls_Spec.

Definition core (s : ls) := (l_next s, l_inmark s, l_checks s, l_out s).
Definition env (s : ls) := (l_o s, l_tmtu s).

Section one.
  Variable root : Z -> N -> Z.
  Notation finish := (finish root).
  Notation finish_each := (finish_each root).
  Notation check_congestion := (check_congestion root).
  (** ** one packet *)
  Lemma check_env q p s : env (snd (check_congestion q p s)) = env s /\ l_out (snd (check_congestion q p s)) = l_out s /\ l_k (snd (check_congestion q p s)) = (if (k_marked (l_k (snd (check_congestion q p s))) =? k_marked (l_k s))%N then l_k s else k_marked1 (l_k s)).
  Proof.
    unfold Ls_Model.check_congestion. destruct (q <? 0)%Z; [cbn; by rewrite N.eqb_refl|]. destruct (_ <? q)%Z; destruct (l_next s) as [t|]; [destruct (t <=? _)%Z|..]; cbn; rewrite ?N.eqb_refl; try done.
    destruct (N.eqb_spec (k_marked (l_k s) + 1) (k_marked (l_k s))); [lia|done].
  Qed.
  Lemma finish_out q p s :
    env (finish q p s) = env s /\ let mtu := effective_mtu (l_o s) (l_tmtu s) in
    let p1 := if o_mark (l_o s) then fst (check_congestion q p s) else p in
    (within mtu p1 /\ l_out (finish q p s) = Handed mtu p1 :: l_out s /\ k_over (l_k (finish q p s)) = k_over (l_k s)) \/
    (~ within mtu p1 /\ l_out (finish q p s) = l_out s /\ k_over (l_k (finish q p s)) = (k_over (l_k s) + 1)%N).
  Proof.
    cbn zeta. unfold Ls_Model.finish. set (mtu := effective_mtu _ _). destruct (check_env q p s) as (E1 & E2 & E3).
    assert (E4 : k_over (l_k (snd (check_congestion q p s))) = k_over (l_k s)) by (rewrite E3; destruct (_ =? _)%N; done).
    destruct (o_mark (l_o s)); [destruct (check_congestion q p s) as [p1 s1]; cbn in *|cbn; clear E1 E2 E3 E4; rename s into s1].
    - destruct (Z.eqb_spec mtu MTU_UNLIMITED) as [Em|Em]; cbn [negb andb].
      + split; [done|]. left. split; [by left|]. cbn. by rewrite E2.
      + destruct (Z.ltb_spec mtu (Z.of_N (wire_size p1))).
        * split; [done|]. right. split; [unfold within; intros [?|?]; lia|]. cbn. rewrite E2, E4. done.
        * split; [done|]. left. split; [by right|]. cbn. by rewrite E2.
    - destruct (Z.eqb_spec mtu MTU_UNLIMITED) as [Em|Em]; cbn [negb andb].
      + split; [done|]. left. split; [by left|]. done.
      + destruct (Z.ltb_spec mtu (Z.of_N (wire_size p))).
        * split; [done|]. right. split; [unfold within; intros [?|?]; lia|]. done.
        * split; [done|]. left. split; [by right|]. done.
  Qed.
  Lemma finish_each_out l : forall q s,
    env (finish_each q l s) = env s /\
    exists new, l_out (finish_each q l s) = new ++ l_out s /\ forall h, h ∈ new -> h_mtu h = effective_mtu (l_o s) (l_tmtu s) /\ within (h_mtu h) (h_pkt h).
  Proof.
    induction l as [|p l IH]; intros q s; cbn [Ls_Model.finish_each]; [split; [done|]; exists []; split; [done|]; by intros ? ?%elem_of_nil|].
    destruct (finish_out (q 0%nat) p s) as [Ee Hf]. cbn zeta in Hf. destruct (IH (fun i => q (S i)) (finish (q 0%nat) p s)) as (E1 & new & E2 & H2).
    split; [congruence|]. assert (Eo : l_o (finish (q 0%nat) p s) = l_o s /\ l_tmtu (finish (q 0%nat) p s) = l_tmtu s) by (unfold env in Ee; split; congruence). destruct Eo as [Eo Et]. rewrite Eo, Et in H2.
    destruct Hf as [(Hw & Hf & _)|(_ & Hf & _)]; rewrite Hf in E2.
    - exists (new ++ [Handed (effective_mtu (l_o s) (l_tmtu s)) (if o_mark (l_o s) then fst (check_congestion (q 0%nat) p s) else p)]). split; [by rewrite <- app_assoc|].
      intros h [Hh|Hh%elem_of_list_singleton]%elem_of_app; [by apply H2|]. subst h. done.
    - exists new. done.
  Qed.
  (** ** marking *)
  Fixpoint due (l : list check) : option Z :=
    match l with
    | [] => None
    | c :: l' => match due l' with
                 | None => Some (c_time c + c_base c)%Z
                 | Some t => Some (if c_marked c then (t + root (c_base c) (N.of_nat (marks (c :: l')) + 1))%Z else t)
                 end
    end.
  Definition verdict (c : check) (l : list check) : Prop :=
    c_marked c = true <-> (c_thr c < c_len c)%Z /\ exists t, due (incident l) = Some t /\ (t <= c_time c)%Z.
  Fixpoint verdicts (l : list check) : Prop := match l with [] => True | c :: l' => verdict c l' /\ verdicts l' end.
  Definition mk (s : ls) : Prop :=
    l_next s = due (incident (l_checks s)) /\ l_inmark s = N.of_nat (marks (incident (l_checks s))) /\ verdicts (l_checks s).
  Lemma due_none l : due l = None -> l = [].
  Proof. destruct l; [done|]. cbn. by destruct (due l). Qed.
  Lemma check_mk q p s : mk s -> mk (snd (check_congestion q p s)).
  Proof.
    intros (H1 & H2 & H3). unfold Ls_Model.check_congestion. destruct (q <? 0)%Z; [done|].
    destruct (Z.ltb_spec (o_thr (l_o s)) q) as [Ht|Ht].
    - destruct (l_next s) as [t|] eqn:En; symmetry in H1.
      + destruct (Z.leb_spec t (r_now (l_rel s))) as [Hn|Hn]; unfold mk; cbn; destruct (Z.ltb_spec (o_thr (l_o s)) q) as [_|]; try lia; cbn; rewrite H1.
        * split; [|split; [|split; [|done]]].
          -- f_equal. f_equal. unfold marks. cbn. f_equal. unfold marks in H2. lia.
          -- unfold marks in *. cbn. lia.
          -- unfold verdict. cbn. rewrite H1. split; [|done]. intros _. eauto.
        * split; [done|]. split; [done|]. split; [|done]. unfold verdict. cbn. rewrite H1. split; [done|]. intros (_ & t' & [= <-] & ?). lia.
      + pose proof (due_none _ H1) as E. unfold mk; cbn. destruct (Z.ltb_spec (o_thr (l_o s)) q) as [_|]; [|lia]. cbn. rewrite H1. split; [done|]. split; [done|]. split; [|done].
        unfold verdict. cbn. rewrite H1. split; [done|]. by intros (_ & t' & ? & _).
    - destruct (l_next s) as [t|] eqn:En; unfold mk; cbn; (destruct (Z.ltb_spec (o_thr (l_o s)) q) as [|_]; [lia|]); cbn.
      + split; [done|]. split; [done|]. split; [|done]. unfold verdict. cbn. split; [done|]. intros [? _]. lia.
      + symmetry in H1. apply due_none in H1. rewrite H1 in H2. split; [done|]. split; [done|]. split; [|done]. unfold verdict. cbn. split; [done|]. intros [? _]. lia.
  Qed.
  Lemma finish_mk q p s : mk s -> mk (finish q p s).
  Proof.
    intros H. unfold Ls_Model.finish. pose proof (check_mk q p s H) as H1. destruct (o_mark _); [|destruct (_ && _); done]. destruct (check_congestion q p s) as [p1 s1]. destruct (_ && _); done.
  Qed.
  Lemma finish_each_mk l : forall q s, mk s -> mk (finish_each q l s).
  Proof. induction l as [|p l IH]; intros q s H; cbn; [done|]. by apply IH, finish_mk. Qed.
  Lemma mk_core s s' : core s' = core s -> mk s -> mk s'.
  Proof. unfold core, mk. intros E. assert (l_next s' = l_next s) as -> by congruence. assert (l_inmark s' = l_inmark s) as -> by congruence. by assert (l_checks s' = l_checks s) as -> by congruence. Qed.
  Lemma verdict_of l1 c l2 : verdicts (l1 ++ c :: l2) -> verdict c l2.
  Proof. induction l1 as [|d l1 IH]; cbn; intros [? ?]; [done|]. by apply IH. Qed.
  (** with one base interval *)
  Lemma due_wait b l c : last l = Some c -> (forall d, d ∈ l -> c_base d = b) -> (c_marked c = false) ->
    due l = Some (c_time c + wait root b (marks l))%Z.
  Proof.
    revert c. induction l as [|d l IH]; intros c Hl Hb Hc; [done|]. cbn. destruct l as [|d2 l].
    - injection Hl as ->. cbn. rewrite Hb by left. unfold marks. cbn. rewrite Hc. done.
    - rewrite (IH c); [|exact Hl|intros; apply Hb; by right|done]. f_equal. rewrite Hb by left. unfold marks. cbn [List.filter]. destruct (c_marked d) eqn:Ed; [|done].
      cbn [length wait]. generalize (length (if c_marked d2 then d2 :: List.filter c_marked l else List.filter c_marked l)) as k. intros k. replace (N.of_nat (S k) + 1)%N with (N.of_nat k + 2)%N by lia. lia.
  Qed.
  Lemma due_lower l t : (forall b n, (0 <= root b n)%Z) -> due l = Some t -> exists c, last l = Some c /\ (c_time c + c_base c <= t)%Z.
  Proof.
    intros Hr. revert t. induction l as [|d l IH]; intros t Ht; [done|]. cbn in Ht. destruct (due l) as [t0|] eqn:Ed.
    - injection Ht as <-. destruct (IH t0 eq_refl) as (c & Hl & Hc). exists c. split; [destruct l; [done|exact Hl]|]. destruct (c_marked d); [|done]. match goal with |- context [root ?x ?y] => pose proof (Hr x y) end. lia.
    - apply due_none in Ed as ->. injection Ht as <-. exists d. split; [done|lia].
  Qed.
  Lemma incident_last l c : verdicts l -> last (incident l) = Some c -> c_marked c = false /\ c ∈ incident l.
  Proof.
    intros Hv. induction l as [|d l IH]; [done|]. cbn. destruct Hv as [Hd Hv]. destruct (_ <? _)%Z; [|done]. intros Hl.
    destruct (incident l) as [|x y] eqn:Ei.
    - injection Hl as ->. split; [|left]. destruct (c_marked c) eqn:Ec; [|done]. apply Hd in Ec as (_ & t & Ht & _). rewrite Ei in Ht. done.
    - destruct (IH Hv Hl) as [? ?]. split; [done|]. by right.
  Qed.
  Lemma incident_above l c : c ∈ incident l -> (c_thr c < c_len c)%Z.
  Proof. induction l as [|d l IH]; cbn; [by intros ?%elem_of_nil|]. destruct (Z.ltb_spec (c_thr d) (c_len d)); [|by intros ?%elem_of_nil]. intros [->|?]%elem_of_cons; [done|auto]. Qed.
End one.

Section proof.
  Variable root : Z -> N -> Z.
  Variable type_of : list N -> N.
  Variables interest_ok data_ok nack_ok cache_ok pa_ok : list N -> bool.
  Variable block : list N -> option (list N).
  Variables (max_retx : N) (idle_period : Z) (thr : N) (rto : list Z -> Z).
  Notation finish := (finish root).
  Notation finish_each := (finish_each root).
  Notation check_congestion := (check_congestion root).
  Notation through := (through root).
  Notation ls_step := (ls_step root type_of interest_ok data_ok nack_ok cache_ok pa_ok block max_retx idle_period thr rto).
  Notation ls_hist := (ls_hist root type_of interest_ok data_ok nack_ok cache_ok pa_ok block max_retx idle_period thr rto).

  Notation mk := (mk root).
  (** ** what an event does to the sending side *)
  Lemma pass_core d s : core (pass d s) = core s.
  Proof. by destruct d. Qed.
  Lemma step_effect q s e s' : ls_step q s e = Some s' ->
    exists l s1, core s1 = core s /\ env s1 = env s /\ core s' = core (finish_each q l s1).
  Proof.
    assert (Hdel : forall p s1 s2, match lp_frag p with
          | None => Some s1
          | Some _ =>
              if (match lp_idx p, lp_cnt p with None, None => false | _, _ => true end) && negb (o_reasm (l_o s1)) then Some s1
              else match receive_fragment block match e with LsRecv ep _ => ep | _ => 0%N end p (l_ra s1) with
                   | None => None
                   | Some (r, RNone) => Some (set_lra r s1)
                   | Some (r, RPacket net first) => Some (pass (decode type_of interest_ok data_ok nack_ok cache_ok pa_ok (l_o s1) net first) (set_lra r s1))
                   | Some (r, RError) => Some (set_k (k_lp_invalid1 (l_k s1)) (set_lra r s1))
                   end
          end = Some s2 -> core s2 = core s1).
    { intros p s1 s2 H. destruct (lp_frag p); [|by injection H as <-]. destruct (_ && _); [by injection H as <-|]. destruct (receive_fragment _ _ _ _) as [[r [|net first|]]|]; [..|done]; injection H as <-; try done. by rewrite pass_core. }
    destruct e as [n|ep x|tx| |key|o m|d]; cbn [Ls_Model.ls_step].
    - unfold send_packet, send_net. destruct (fragment_mtu _ _) as [mtu|]; [|done].
      destruct (if _ && _ then _ else _) as [[l|]|]; [|intros [= <-]; by exists [], s|done].
      destruct l as [|f [|f2 l]]; [done| |].
      + destruct (lp_idx f); [done|]. destruct (lp_cnt f); [done|]. destruct (o_rel _); [|intros [= <-]; by exists [f], s].
        destruct (assign_sequences _ _) as [last l1]. destruct (rel_step _ _ _ _ _ _ _) as [r|]; [|done]. intros [= <-]. unfold Ls_Model.through. (eexists _, _; split; [|split; [|reflexivity]]; done).
      + destruct (assign_sequences _ _) as [last l1]. destruct (o_rel _); [|intros [= <-]; (eexists l1, _; split; [|split; [|reflexivity]]; done)].
        destruct (rel_step _ _ _ _ _ _ _) as [r|]; [|done]. intros [= <-]. unfold Ls_Model.through. (eexists _, _; split; [|split; [|reflexivity]]; done).
    - unfold receive. destruct x as [p|]; [|intros [= <-]; by exists [], s]. destruct (o_rel (l_o s)).
      + destruct (process_incoming _ _ _ _ _ _ _) as [[r [|]]|]; [..|done].
        * intros H%Hdel. rewrite H. unfold Ls_Model.through. (eexists _, _; split; [|split; [|reflexivity]]; done).
        * intros [= <-]. unfold Ls_Model.through. (eexists _, _; split; [|split; [|reflexivity]]; done).
      + intros H%Hdel. by exists [], s.
    - destruct (rel_step _ _ _ _ _ _ _) as [r|]; [|done]. intros [= <-]. unfold Ls_Model.through. (eexists _, _; split; [|split; [|reflexivity]]; done).
    - destruct (rel_step _ _ _ _ _ _ _) as [r|]; [|done]. intros [= <-]. unfold Ls_Model.through. (eexists _, _; split; [|split; [|reflexivity]]; done).
    - intros [= <-]. by exists [], s.
    - destruct (rel_step _ _ _ _ _ _ _) as [r|]; [|done]. intros [= <-]. by exists [], s.
    - destruct (rel_step _ _ _ _ _ _ _) as [r|]; [|done]. intros [= <-]. by exists [], s.
  Qed.

  Lemma step_out q s e s' : ls_step q s e = Some s' ->
    exists new, l_out s' = new ++ l_out s /\ forall h, h ∈ new -> h_mtu h = effective_mtu (l_o s) (l_tmtu s) /\ within (h_mtu h) (h_pkt h).
  Proof.
    intros (l & s1 & E1 & E2 & E3)%step_effect. destruct (finish_each_out root l q s1) as (_ & new & H1 & H2). exists new.
    unfold core, env in *. assert (l_out s1 = l_out s) as <- by congruence. assert (l_o s1 = l_o s) as <- by congruence. assert (l_tmtu s1 = l_tmtu s) as <- by congruence. split; [congruence|done].
  Qed.
  Lemma hist_within s0 l s : ls_hist s0 l s -> (forall h, h ∈ l_out s0 -> within (h_mtu h) (h_pkt h)) -> forall h, h ∈ l_out s -> within (h_mtu h) (h_pkt h).
  Proof.
    intros H H0. induction H as [|l s e q s' H IH Hok Hst]; [done|]. destruct (step_out q s e s' Hst) as (new & -> & Hn). intros h [Hh|Hh]%elem_of_app; [by apply Hn|by apply IH].
  Qed.

  Lemma hist_mk s0 l s : ls_hist s0 l s -> mk s0 -> mk s.
  Proof.
    intros H H0. induction H as [|l s e q s' H IH Hok Hst]; [done|]. apply step_effect in Hst as (fs & s1 & E1 & E2 & E3). eapply mk_core; [exact E3|]. apply finish_each_mk. by eapply mk_core.
  Qed.

End proof.
