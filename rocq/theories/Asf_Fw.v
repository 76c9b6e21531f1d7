(** ASF, run. *)
From stdpp Require Import gmap.
From Verif Require Import Lib Name_Model Name_Proof Packet_Model Nt_Model Nt_Spec Tree_Model Tree_Proof Tab_Model Tab_Spec Tab_At Tab_Fib Tab_Pit Tab_Pit2 Tab_Sc Tab_Run Tab_Main Fw_Model Fw_Spec Fw_Inv Fw_Case Fw_Case2 Fw_Case3 Fw_Hist Fw_Acc Fw_Step Fw_Out Fw_Main Fw_Data Fw_Ex FwFace_Props St_Model St_Retx St_Spec St_Dec St_Run St_At St_Best St_Multi StMulti_Props Asf_Model Asf_Spec Asf_Rank.
From Verif Require Cs_Model Cs_Spec Cs_Main Dnl_Model.

(** the FIB entry for an Interest named [n] with forwarding hint [hint]: its prefix and nexthops *)
Definition matched (s : fw) (hint : list name) (n p : name) (l : list nexthop) : Prop :=
  let targets := match hint with [] => [n] | _ => hint end in
  (exists t1 d t2 fe, targets = t1 ++ d :: t2 /\ Forall (no_route s) t1 /\ longest_defined (fun m => fib_at (fw_t s) m) d p /\
     fib_at (fw_t s) p = Some fe /\ fe_nexthops fe = l /\ l <> []) \/
  (Forall (no_route s) targets /\ p = [] /\ l = []).
(** while an Interest is dealt with, faces, routes and the clock stay as they are *)
Definition meanwhile (s s1 : fw) : Prop :=
  fw_faces s1 = fw_faces s /\ now (fw_t s1) = now (fw_t s) /\ forall n, fib_at (fw_t s1) n = fib_at (fw_t s) n.
(** a copy of an Interest named [n] that came from [f] and was sent to [g] may go to [g'] as a probe *)
Definition may_probe (s : fw) (f : N) (n : name) (g g' : N) : Prop :=
  face_exists s g' /\ g' <> f /\ g' <> g /\ scope_ok (fw_faces s) f n g'.
(** the unmeasured ones go first, cheapest first *)
Definition probes_first (know : known_of) (P : nexthop -> Prop) (l : list nexthop) (h : nexthop) : Prop :=
  h ∈ l /\ P h /\ ((exists h', h' ∈ l /\ P h' /\ standing_of know h' = Unmeasured) ->
    standing_of know h = Unmeasured /\ forall h', h' ∈ l -> P h' -> standing_of know h' = Unmeasured -> cheaper h h').
(** the nexthop of [l] with [P] that is preferred *)
Definition best (know : known_of) (P : nexthop -> Prop) (l : list nexthop) (h : nexthop) : Prop :=
  h ∈ l /\ P h /\ forall h', h' ∈ l -> P h' -> preferred know h h'.

Lemma matched_ext s s3 hint n p l : (forall n, fib_at (fw_t s3) n = fib_at (fw_t s) n) -> matched s3 hint n p l -> matched s hint n p l.
Proof.
  intros H. assert (H2 : forall m, no_route s3 m -> no_route s m) by (intros m A q Hq; rewrite <- H; by apply A).
  assert (H3 : forall h, Forall (no_route s3) h -> Forall (no_route s) h) by (intros h Hh; by eapply Forall_impl; [exact Hh|]).
  intros [(t1 & d & t2 & fe & A & B & C & D & E)|(A & B)]; [left|right; by split; [apply H3|]].
  exists t1, d, t2, fe. split; [done|]. split; [by apply H3|]. split; [by eapply (longest_ext (fun m => fib_at (fw_t s3) m))|]. split; [by rewrite <- H|done].
Qed.
Lemma lookup_matched s e fe : Inv s -> lookup_fib s e = Some fe -> matched s (i_hint (pe_interest e)) (i_name (pe_interest e)) (fe_prefix fe) (fe_nexthops fe).
Proof.
  intros I.
  assert (Hr : forall n, let fe := fib_lpm n (fw_t s) in (longest_defined (fun m => fib_at (fw_t s) m) n (fe_prefix fe) /\ fib_at (fw_t s) (fe_prefix fe) = Some fe /\ fe_nexthops fe <> []) \/ (no_route s n /\ fe = FibEntry [] [])).
  { intros n. destruct (fib_lpm_ok n (fw_t s) (ti_tree _ (iv_tab _ I))) as [(p & Hp & Hf)|[Hno Hx]]; [left|by right].
    apply (ti_fib _ (iv_tab _ I)) in Hf as Hpre. destruct Hpre as [Hpre _]. cbv zeta. rewrite Hpre. split; [done|]. split; [done|]. by apply (iv_fib _ I p). }
  unfold lookup_fib, matched. destruct (i_hint (pe_interest e)) as [|d0 h0] eqn:Eh; cbv zeta.
  - intros [= <-]. destruct (Hr (i_name (pe_interest e))) as [(A & B & C)|[A ->]].
    + left. eexists [], _, [], _. split; [done|]. split; [constructor|]. split; [exact A|]. split; [exact B|]. done.
    + right. split; [by repeat constructor|done].
  - destruct (in_producer_region (d0 :: h0) (fw_regions s)) eqn:Er; [done|].
    assert (Hg : forall hint last, (forall fe, last = Some fe -> fe = FibEntry [] []) -> lookup_fib_hint (fw_t s) hint last = Some fe ->
      (exists t1 d t2 fe', hint = t1 ++ d :: t2 /\ Forall (no_route s) t1 /\ longest_defined (fun m => fib_at (fw_t s) m) d (fe_prefix fe) /\ fib_at (fw_t s) (fe_prefix fe) = Some fe' /\ fe_nexthops fe' = fe_nexthops fe /\ fe_nexthops fe <> []) \/
      (Forall (no_route s) hint /\ fe_prefix fe = [] /\ fe_nexthops fe = [])).
    { clear Er Eh d0 h0. induction hint as [|d hint IH]; intros last Hlast H; simpl in H.
      - right. destruct last as [fe'|]; [|done]. destruct (fe_prefix fe'); [|done]. injection H as <-. rewrite (Hlast _ eq_refl). split; [constructor|done].
      - destruct (Hr d) as [(A & B & C)|[A E]].
        + left. destruct (fe_nexthops (fib_lpm d (fw_t s))) as [|h l] eqn:El; [done|]. injection H as <-. eexists [], d, hint, _. split; [done|]. split; [constructor|]. split; [exact A|]. split; [exact B|]. split; [done|]. congruence.
        + rewrite E in H. simpl in H. apply IH in H as [(t1 & d1 & t2 & fe' & -> & Hf & Hx)|[Hf Hx]]; [| |by intros fe0 [= <-]].
          * left. exists (d :: t1), d1, t2, fe'. split; [done|]. split; [by constructor|done].
          * right. split; [by constructor|done]. }
    intros H. destruct (Hg _ None ltac:(done) H) as [?|?]; [by left|by right].
Qed.

Lemma fresh_other old x : fresh_nonce old x <> old.
Proof.
  unfold fresh_nonce. set (y := (N.of_nat x mod 4294967296)%N). assert (Hy : (y < 4294967296)%N) by (by apply N.mod_lt). destruct (N.eqb_spec y old) as [<-|]; [|done].
  destruct (N.eq_dec y 4294967295) as [->|]; [by vm_compute|]. rewrite N.mod_small by lia. lia.
Qed.

Lemma probe_allowed_spec s f g i nh : face_exists s f -> probe_allowed (fw_faces s) f g i nh = true <-> may_probe s f (i_name i) g (nh_face nh).
Proof.
  intros [infc Hf]. unfold probe_allowed, may_probe, face_exists. rewrite Hf. destruct (fw_faces s !! nh_face nh) as [outfc|] eqn:Eg.
  2: { split; [done|]. by intros [[? ?] _]. }
  assert (Hsc : would_violate_scope infc i outfc = false <-> scope_ok (fw_faces s) f (i_name i) (nh_face nh)).
  { unfold would_violate_scope, scope_ok. rewrite <- is_localhost_spec, <- is_localhop_spec.
    assert (Hg : (exists fc, fw_faces s !! nh_face nh = Some fc /\ fc_local fc = true) <-> fc_local outfc = true).
    { rewrite Eg. split; [intros (fc & [= <-] & ?); done|by exists outfc]. }
    assert (Hi : (exists fc, fw_faces s !! f = Some fc /\ fc_local fc = true) <-> fc_local infc = true).
    { rewrite Hf. split; [intros (fc & [= <-] & ?); done|by exists infc]. }
    rewrite Hg, Hi. destruct (fc_local outfc), (is_localhost (i_name i)), (is_localhop (i_name i)), (fc_local infc); simpl; intuition congruence. }
  rewrite <- Hsc, negb_true_iff, !orb_false_iff, !N.eqb_neq. split; [intros [[A B] C]; split; [by eexists|done]|]. by intros (_ & A & B & C).
Qed.

Section run.
  Variable rand : nat -> nat.
  Variable face_order : list N -> list N.
  Notation run := (run rand face_order).
  (** a copy with another nonce is sent *)
  Lemma run_copy i x k g s s' : Inv s -> (0 <= i_lifetime i)%Z -> is_Some (pit_at (fw_t s) k) -> run (Some i) k (PInterest Trigger (Some x) false g (fun _ => PDone)) s = Some (s', tt) ->
    exists e e1 l, did k e e1 l s s' /\ sent s g (without_token (with_nonce x i)) l.
  Proof.
    intros I Hl Hk H. assert (H1 : run (Some (with_nonce x i)) k (PInterest Trigger None false g (fun _ => PDone)) s = Some (s', tt)) by exact H.
    apply run_interest in H1 as (e & e1 & l & s1 & b & D & H1 & _ & Hs & _); [|done|done|done]. apply run_done in H1. subst s1. by exists e, e1, l.
  Qed.
  (** ASF sends again as multicast does for one nexthop *)
  Lemma resend_is c i f k s e nh : pit_at (fw_t s) k = Some e -> next_hop_eligible (fw_faces s) f i nh e None = true ->
    run (Some i) k (multicast_loop c i f k [nh]) s = run (Some i) k (resend c k s e (nh_face nh)) s.
  Proof.
    intros He Hel. cbn [multicast_loop]. unfold with_entry at 1. cbn [Fw_Model.run]. unfold bind at 1, get at 1. change (pit_get k (fw_t s)) with (pit_at (fw_t s) k). rewrite He.
    unfold resend. destruct (decide_per_upstream c (now (fw_t s)) e (nh_face nh)) as [[dec si]|]; [|done]. cbv zeta. rewrite Hel. simpl negb. cbv iota.
    destruct dec, si; done.
  Qed.
End run.
