(** Invariant of the forwarder, and what running a strategy can do *)
From stdpp Require Import gmap.
From Verif Require Import Lib Name_Model Name_Proof Packet_Model Nt_Model Nt_Spec Nt_Tree Tree_Model Tree_Proof Tab_Model Tab_Spec Tab_At Tab_Fib Tab_Pit Tab_Pit2 Tab_Meas Tab_Sc Tab_Clean Tab_Run Tab_Main Fw_Model Fw_Spec.
From Verif Require Cs_Model Cs_Spec Cs_Main Dnl_Model.

(** * Running monadic programs *)
Lemma bind_Some {A B} (m : M A) (q : A -> M B) s s' b : bind m q s = Some (s', b) ->
  exists s1 a, m s = Some (s1, a) /\ q a s1 = Some (s', b).
Proof. unfold bind. destruct (m s) as [[s1 a]|]; [eauto|done]. Qed.
Lemma entry_Some k s s' e : entry k s = Some (s', e) -> s' = s /\ pit_at (fw_t s) k = Some e.
Proof. unfold entry. destruct (pit_get k (fw_t s)); [|done]. by intros [= <- <-]. Qed.
Lemma face_of_Some f s s' fc : face_of f s = Some (s', fc) -> s' = s /\ fw_faces s !! f = Some fc.
Proof. unfold face_of. destruct (fw_faces s !! f); [|done]. by intros [= <- <-]. Qed.
Lemma upd_entry_Some k g s s' u : upd_entry k g s = Some (s', u) ->
  exists e, pit_at (fw_t s) k = Some e /\ s' = set_t (pit_upd k g (fw_t s)) s.
Proof.
  unfold upd_entry. intros (s1 & e & [-> He]%entry_Some & H)%bind_Some. exists e. split; [done|].
  unfold tab in H. by injection H as <- <-.
Qed.
Lemma each_app {A} (l1 l2 : list A) f s : each (l1 ++ l2) f s = bind (each l1 f) (fun _ => each l2 f) s.
Proof. revert s. induction l1 as [|x l1 IH]; intros s; simpl; [done|]. unfold bind. destruct (f x s) as [[s1 []]|]; [apply IH|done]. Qed.

Ltac inv_bind H := let s1 := fresh "s" in let a := fresh "a" in let H1 := fresh "H" in
  apply bind_Some in H as (s1 & a & H1 & H).

(** * The invariant *)
Record entry_fine (F : gmap N face) (e : pit_entry) : Prop := {
  ef_in : forall r, r ∈ pe_in e -> is_Some (F !! fr_face (ir_rec r));
  ef_out : forall r, r ∈ pe_out e -> is_Some (F !! fr_face (or_rec r));
  ef_life : (0 <= i_lifetime (pe_interest e))%Z;
  ef_in_life : forall r, r ∈ pe_in e -> (0 <= i_lifetime (ir_interest r))%Z;
}.

Record Inv (s : fw) : Prop := {
  iv_tab : tab_inv (fw_t s);
  iv_root : is_Some (sc_at (fw_t s) []);
  iv_pit : forall k e, pit_at (fw_t s) k = Some e -> entry_fine (fw_faces s) e;
  iv_fib : forall n fe, fib_at (fw_t s) n = Some fe ->
             fe_nexthops fe <> [] /\ forall h, h ∈ fe_nexthops fe -> is_Some (fw_faces s !! nh_face h);
  iv_ids : forall f, is_Some (fw_faces s !! f) -> (f <= fw_last s)%N;
  iv_last : (255 <= fw_last s < 2 ^ 64)%N;
  iv_cs : exists limit, Cs_Spec.reach_wf limit (fw_cs s);
}.

(** what strategies never change *)
Record same_core (s s' : fw) : Prop := {
  sc_cs : fw_cs s' = fw_cs s;
  sc_dnl : fw_dnl s' = fw_dnl s;
  sc_faces : fw_faces s' = fw_faces s;
  sc_last : fw_last s' = fw_last s;
  sc_regions : fw_regions s' = fw_regions s;
  sc_unsol : fw_unsol s' = fw_unsol s;
  sc_hop : fw_hop s' = fw_hop s;
  sc_fib : forall n, fib_at (fw_t s') n = fib_at (fw_t s) n;
  sc_sc : forall n, sc_at (fw_t s') n = sc_at (fw_t s) n;
  sc_now : now (fw_t s') = now (fw_t s);
}.
Lemma same_core_refl s : same_core s s.
Proof. by split. Qed.
Lemma same_core_trans s1 s2 s3 : same_core s1 s2 -> same_core s2 s3 -> same_core s1 s3.
Proof. intros [] []. split; try congruence; intros n; etrans; eauto. Qed.

Lemma same_core_io s s' l c : same_core s s' -> same_core s (set_cnt c (set_log l s')).
Proof. intros []. by split. Qed.

Definition same_pits (s s' : fw) : Prop := forall k, pit_at (fw_t s') k = pit_at (fw_t s) k.
(** entry [k] goes from [e] to [e'] *)
Definition entry_to (k : pit_key) (e e' : pit_entry) (s s' : fw) : Prop :=
  pit_at (fw_t s) k = Some e /\
  forall k', pit_at (fw_t s') k' = if decide (k' = k) then Some e' else pit_at (fw_t s) k'.

(** records up to strategy info *)
Definition like_rec (r r' : face_record) : Prop :=
  fr_face r' = fr_face r /\ fr_nonce r' = fr_nonce r /\ fr_renewed r' = fr_renewed r /\ fr_expiry r' = fr_expiry r.
Definition like_in (r r' : in_record) : Prop := like_rec (ir_rec r) (ir_rec r') /\ ir_interest r' = ir_interest r.
Definition like_out (r r' : out_record) : Prop := like_rec (or_rec r) (or_rec r') /\ or_nack r' = or_nack r.
(** entries up to strategy info and timer *)
Record like (e e' : pit_entry) : Prop := {
  lk_interest : pe_interest e' = pe_interest e;
  lk_in : Forall2 like_in (pe_in e) (pe_in e');
  lk_out : Forall2 like_out (pe_out e) (pe_out e');
  lk_sat : pe_satisfied e' = pe_satisfied e;
  lk_fresh : pe_fresh e' = pe_fresh e;
}.
Global Instance like_rec_refl : Reflexive like_rec.
Proof. by intros r. Qed.
Global Instance like_in_refl : Reflexive like_in.
Proof. by intros r. Qed.
Global Instance like_out_refl : Reflexive like_out.
Proof. by intros r. Qed.
Lemma like_refl e : like e e.
Proof. by split. Qed.
Lemma like_in_faces l l' : Forall2 like_in l l' -> rec_faces_in l' = rec_faces_in l.
Proof. induction 1 as [|r r' l l' [(Hf & _) _] H IH]; [done|]. by rewrite !rec_faces_in_cons, IH, Hf. Qed.
Lemma like_out_faces l l' : Forall2 like_out l l' -> rec_faces_out l' = rec_faces_out l.
Proof. induction 1 as [|r r' l l' [(Hf & _) _] H IH]; [done|]. by rewrite !rec_faces_out_cons, IH, Hf. Qed.
Lemma like_in_elem l l' r' : Forall2 like_in l l' -> r' ∈ l' -> exists r, r ∈ l /\ like_in r r'.
Proof. intros H [i Hi]%elem_of_list_lookup. destruct (Forall2_lookup_r _ _ _ _ _ H Hi) as (r & Hr & ?). exists r. split; [by eapply elem_of_list_lookup_2|done]. Qed.
Lemma like_out_elem l l' r' : Forall2 like_out l l' -> r' ∈ l' -> exists r, r ∈ l /\ like_out r r'.
Proof. intros H [i Hi]%elem_of_list_lookup. destruct (Forall2_lookup_r _ _ _ _ _ H Hi) as (r & Hr & ?). exists r. split; [by eapply elem_of_list_lookup_2|done]. Qed.
Lemma like_find_in f l l' : Forall2 like_in l l' ->
  match find_in f l, find_in f l' with Some r, Some r' => like_in r r' | None, None => True | _, _ => False end.
Proof.
  unfold find_in. induction 1 as [|r r' l l' Hr H IH]; simpl; [done|]. destruct Hr as [(Hf & Hr) Hi]. rewrite Hf.
  destruct (fr_face (ir_rec r) =? f)%N; [|done]. by split.
Qed.
Lemma like_find_out f l l' : Forall2 like_out l l' ->
  match find_out f l, find_out f l' with Some r, Some r' => like_out r r' | None, None => True | _, _ => False end.
Proof.
  unfold find_out. induction 1 as [|r r' l l' Hr H IH]; simpl; [done|]. destruct Hr as [(Hf & Hr) Hi]. rewrite Hf.
  destruct (fr_face (or_rec r) =? f)%N; [|done]. by split.
Qed.
Lemma like_fine F e e' : like e e' -> entry_fine F e -> entry_fine F e'.
Proof.
  intros [H1 H2 H3 H4 H5] [E1 E2 E3 E4]. split.
  - intros r' (r & Hr & (Hf & _) & _)%(like_in_elem _ _ _ H2). rewrite Hf. by apply E1.
  - intros r' (r & Hr & (Hf & _) & _)%(like_out_elem _ _ _ H3). rewrite Hf. by apply E2.
  - by rewrite H1.
  - intros r' (r & Hr & _ & Hi)%(like_in_elem _ _ _ H2). rewrite Hi. by apply E4.
Qed.
Lemma like_ok t e e' : like e e' -> pe_ok t e -> pe_ok t e'.
Proof.
  intros [H1 H2 H3 H4 H5] [E1 E2 E3 E4]. split.
  - by rewrite (like_in_faces _ _ H2).
  - by rewrite (like_out_faces _ _ H3).
  - intros r' (r & Hr & (Hf & Hn & Hre & He) & Hi)%(like_in_elem _ _ _ H2). specialize (E3 r Hr). unfold in_ok in *.
    unfold pe_key. rewrite H1, Hi, Hn, Hre, He. exact E3.
  - intros r' (r & Hr & (Hf & Hn & Hre & He) & Hi)%(like_out_elem _ _ _ H3). specialize (E4 r Hr). unfold out_ok in *.
    rewrite Hre, He. exact E4.
Qed.

(** ** Writing to one entry *)
Lemma pit_upd_core k g s e : Inv s -> pit_at (fw_t s) k = Some e ->
  (forall pe, pe_key (g pe) = pe_key pe) -> (pe_ok (now (fw_t s)) e -> pe_ok (now (fw_t s)) (g e)) ->
  let s' := set_t (pit_upd k g (fw_t s)) s in
  same_core s s' /\ tab_inv (fw_t s') /\ entry_to k e (g e) s s' /\ pit_n (fw_t s') = pit_n (fw_t s).
Proof.
  intros I He Hk Hok s'. pose proof (iv_tab _ I) as It.
  destruct (pit_upd_ok k g (fw_t s) (ti_tree _ It) (ti_pit _ It)) as (l & H1 & H2 & H3 & H4 & H5).
  - by exists e.
  - intros pe <-. apply Hk.
  - intros pe. rewrite He. by intros [= <-].
  - pose proof (only_pit_frame _ _ _ _ H3) as (_ & [Hf _] & _ & [Hs _] & Hn).
    split; [by split|]. split; [eapply only_pit_inv; [exact It|done|done|exact H3]|]. split; [|done].
    split; [done|]. intros k'. unfold s'. simpl. rewrite H4. case_decide; [|done]. by rewrite He.
Qed.
Lemma Inv_core s s' : Inv s -> same_core s s' -> tab_inv (fw_t s') ->
  (forall k e, pit_at (fw_t s') k = Some e -> entry_fine (fw_faces s) e) -> Inv s'.
Proof.
  intros [I1 I2 I3 I4 I5 I6 I7] [C1 C2 C3 C4 C5 C6 C7 C8 C9 C10] Ht Hp. split.
  - done.
  - by rewrite C9.
  - rewrite C3. done.
  - intros n fe. rewrite C8, C3. apply I4.
  - rewrite C3, C4. done.
  - by rewrite C4.
  - by rewrite C1.
Qed.
Lemma Inv_entry_to k e e' s s' : Inv s -> same_core s s' -> tab_inv (fw_t s') -> entry_to k e e' s s' ->
  entry_fine (fw_faces s) e' -> Inv s'.
Proof.
  intros I C Ht [He Hk] Hf. apply (Inv_core s); [done..|]. intros k0 e0. rewrite Hk. case_decide; [by intros [= <-]|apply I].
Qed.
Lemma Inv_same_pits s s' : Inv s -> same_core s s' -> tab_inv (fw_t s') -> same_pits s s' -> Inv s'.
Proof. intros I C Ht Hp. apply (Inv_core s); [done..|]. intros k e. rewrite Hp. apply I. Qed.

Lemma entry_ok s k e : Inv s -> pit_at (fw_t s) k = Some e -> pe_ok (now (fw_t s)) e /\ pe_key e = k.
Proof.
  intros I He. pose proof (iv_tab _ I) as It. rewrite pit_at_pview in He.
  pose proof (proj1 (pview_Some _ _ _ _ _ (ti_pit _ It)) He) as [[n Hn] Hk]. split; [|done]. by eapply (pi_ok _ _ _ (ti_pit _ It)).
Qed.

(** * What a strategy can do *)

(** an Interest sent because of [i] *)
Record derived (i j : interest) : Prop := {
  de_key : key_of j = key_of i;
  de_hop : i_hop j = i_hop i;
  de_life : i_lifetime j = i_lifetime i;
  de_hint : i_hint j = i_hint i;
  de_nexthop : i_nexthop j = i_nexthop i;
}.
Lemma derived_refl i : derived i i.
Proof. by split. Qed.
(** the Interest a strategy forwards *)
Definition src_interest (trig : option interest) (e : pit_entry) (src : isrc) : option interest :=
  match src with
  | Trigger => trig
  | OfEntry => Some (pe_interest e)
  | OfInRecord g => ir_interest <$> find_in g (pe_in e)
  end.
(** what strategies may change in it *)
Definition prepare (nonce : option N) (nd : bool) (i : interest) : interest :=
  let i1 := match nonce with Some x => with_nonce x i | None => i end in
  without_token (if nd then with_nondisc i1 else i1).
Definition hop_zero (i : interest) : Prop := i_hop i = Some 0%N.
Lemma prepare_derived nonce nd i : derived i (prepare nonce nd i).
Proof. destruct nonce, nd; by split. Qed.

Inductive satom (trig : option interest) (k : pit_key) (a : act) (s s' : fw) : Prop :=
| sa_none : a = AOther -> same_core s s' -> tab_inv (fw_t s') -> same_pits s s' -> pit_n (fw_t s') = pit_n (fw_t s) -> fw_log s' = fw_log s -> fw_cnt s' = fw_cnt s -> satom trig k a s s'
| sa_info e e' : a = AOther -> same_core s s' -> tab_inv (fw_t s') -> entry_to k e e' s s' -> like e e' -> pit_n (fw_t s') = pit_n (fw_t s) ->
    pe_timer e' = pe_timer e -> fw_log s' = fw_log s -> fw_cnt s' = fw_cnt s -> satom trig k a s s'
| sa_timer e e' ms : a = ATimer ms -> same_core s s' -> tab_inv (fw_t s') -> entry_to k e e' s s' -> like e e' -> pit_n (fw_t s') = pit_n (fw_t s) ->
    pe_timer e' = Some (now (fw_t s) + ns_of_ms (Z.max ms 0))%Z -> fw_log s' = fw_log s -> fw_cnt s' = fw_cnt s -> satom trig k a s s'
| sa_interest e i j src nonce nd f fc : a = AInterest src nonce nd f -> same_core s s' -> tab_inv (fw_t s') ->
    src_interest trig e src = Some i -> derived i j -> j = prepare nonce nd i \/ trig = Some j ->
    fw_faces s !! f = Some fc -> (hop_zero j -> fc_local fc = true) ->
    entry_to k e (set_pe_out (insert_or_update_out f j (now (fw_t s)) (pe_out e)) e) s s' -> pit_n (fw_t s') = pit_n (fw_t s) ->
    fw_log s' = Tx_interest f j :: fw_log s -> fw_cnt s' = inc_out_interests (fw_cnt s) -> satom trig k a s s'
| sa_hop0 src nonce nd f : a = AInterest src nonce nd f -> same_core s s' -> fw_t s' = fw_t s -> fw_log s' = fw_log s -> fw_cnt s' = inc_out_hop0 f (fw_cnt s) ->
    nonlocal_face s f -> satom trig k a s s'
| sa_data e r d f0 f fc : a = AData d f0 -> same_core s s' -> tab_inv (fw_t s') -> find_in f (pe_in e) = Some r ->
    matches_data (pe_interest e) d = true -> fw_faces s !! f = Some fc -> (is_localhost (d_name d) = true -> fc_local fc = true) ->
    entry_to k e (set_pe_in (delete_in f (pe_in e)) e) s s' -> pit_n (fw_t s') = pit_n (fw_t s) ->
    fw_log s' = Tx_data f d (i_token (ir_interest r)) :: fw_log s -> fw_cnt s' = inc_out_data (fw_cnt s) ->
    (f = f0 -> fc_link fc = LINK_AD_HOC) -> satom trig k a s s'
| sa_drop e r d f0 f fc : a = AData d f0 -> same_core s s' -> tab_inv (fw_t s') -> find_in f (pe_in e) = Some r ->
    matches_data (pe_interest e) d = true -> fw_faces s !! f = Some fc -> is_localhost (d_name d) = true -> fc_local fc = false ->
    entry_to k e (set_pe_in (delete_in f (pe_in e)) e) s s' -> pit_n (fw_t s') = pit_n (fw_t s) ->
    fw_log s' = fw_log s -> fw_cnt s' = fw_cnt s -> satom trig k a s s'
| sa_nack e r f fc reason : a = ANack reason f -> same_core s s' -> tab_inv (fw_t s') -> find_in f (pe_in e) = Some r ->
    fw_faces s !! f = Some fc -> fc_link fc = LINK_P2P ->
    entry_to k e (set_pe_in (delete_in f (pe_in e)) e) s s' -> pit_n (fw_t s') = pit_n (fw_t s) ->
    fw_log s' = Tx_nack f (ir_interest r) reason :: fw_log s -> fw_cnt s' = inc_out_nacks (fw_cnt s) -> satom trig k a s s'.

(** a sequence of calls, each of them allowed by [K] in some state [R] that was read *)
Definition allowed (R : fw -> Prop) (K : fw -> act -> Prop) (trig : option interest) (k : pit_key) (s s' : fw) : Prop :=
  exists a, satom trig k a s s' /\ exists lr, R lr /\ K lr a.
Definition anyk (trig : option interest) (k : pit_key) : fw -> fw -> Prop := allowed (fun _ => True) (fun _ _ => True) trig k.

(** deleting and inserting records keeps entries fine *)
Lemma fine_del_in F f e : entry_fine F e -> entry_fine F (set_pe_in (delete_in f (pe_in e)) e).
Proof.
  intros [E1 E2 E3 E4]. assert (Hs : forall r, r ∈ delete_in f (pe_in e) -> r ∈ pe_in e).
  { generalize (pe_in e). induction l as [|x l IH]; simpl; [done|]. intros r. destruct (fr_face (ir_rec x) =? f)%N; [by right|].
    intros [->|?]%elem_of_cons; [by left|right; by apply IH]. }
  split; simpl; auto.
Qed.
Lemma insert_out_elem f i t l r : r ∈ insert_or_update_out f i t l -> r ∈ l \/ fr_face (or_rec r) = f.
Proof.
  unfold insert_or_update_out. destruct (out_update f i t l) as [l1|] eqn:E.
  - revert l1 E. induction l as [|x l IH]; intros l1; simpl; [done|]. destruct (N.eqb_spec (fr_face (or_rec x)) f) as [Ef|Ef].
    + intros [= <-] [->|?]%elem_of_cons; [by right|left; by right].
    + destruct (out_update f i t l) as [l2|]; [|done]. intros [= <-] [->|Hr]%elem_of_cons; [left; by left|].
      destruct (IH l2 eq_refl Hr); [left; by right|by right].
  - intros [->|?]%elem_of_cons; [by right|by left].
Qed.
Lemma insert_in_elem f i t l r : r ∈ insert_or_update_in f i t l -> r ∈ l \/ (fr_face (ir_rec r) = f /\ ir_interest r = i).
Proof.
  unfold insert_or_update_in. destruct (in_update f i t l) as [l1|] eqn:E.
  - revert l1 E. induction l as [|x l IH]; intros l1; simpl; [done|]. destruct (N.eqb_spec (fr_face (ir_rec x)) f) as [Ef|Ef].
    + intros [= <-] [->|?]%elem_of_cons; [by right|left; by right].
    + destruct (in_update f i t l) as [l2|]; [|done]. intros [= <-] [->|Hr]%elem_of_cons; [left; by left|].
      destruct (IH l2 eq_refl Hr); [left; by right|by right].
  - intros [->|?]%elem_of_cons; [by right|by left].
Qed.
Lemma fine_ins_out F f i t e : is_Some (F !! f) -> entry_fine F e -> entry_fine F (set_pe_out (insert_or_update_out f i t (pe_out e)) e).
Proof.
  intros Hf [E1 E2 E3 E4]. split; simpl; auto. intros r [?| ->]%insert_out_elem; auto.
Qed.

Lemma satom_core trig k a s s' : satom trig k a s s' -> same_core s s'.
Proof. by destruct 1. Qed.
Lemma satom_inv trig k a s s' : Inv s -> satom trig k a s s' -> Inv s'.
Proof.
  intros I H. destruct H as [? C T E|e e' ? C T E L|e e' ms ? C T E L|e i j src nonce nd f fc ? C T Hs Hd Hj Hf Hh E|src nonce nd f ? C E
    |e r d f0 f fc ? C T Hr Hm Hf Hl E|e r d f0 f fc ? C T Hr Hm Hf Hl Hl' E|e r f fc reason ? C T Hr Hf Hl E].
  - by apply (Inv_same_pits s).
  - eapply (Inv_entry_to k e e'); [done..|]. eapply like_fine; [done|]. by eapply (iv_pit s I k), E.
  - eapply (Inv_entry_to k e e'); [done..|]. eapply like_fine; [done|]. by eapply (iv_pit s I k), E.
  - eapply Inv_entry_to; [done..|]. apply fine_ins_out; [by eexists|]. by eapply (iv_pit s I k), E.
  - apply (Inv_same_pits s); [done|done| |].
    + rewrite E. apply I.
    + intros k'. by rewrite E.
  - eapply Inv_entry_to; [done..|]. apply fine_del_in. by eapply (iv_pit s I k), E.
  - eapply Inv_entry_to; [done..|]. apply fine_del_in. by eapply (iv_pit s I k), E.
  - eapply Inv_entry_to; [done..|]. apply fine_del_in. by eapply (iv_pit s I k), E.
Qed.
Lemma satoms_inv R K trig k s s' : Inv s -> rtc (allowed R K trig k) s s' -> Inv s'.
Proof. intros I H. induction H as [|s s1 s' (a & H1 & _) H2 IH]; [done|]. by eapply IH, satom_inv. Qed.
Lemma satoms_core R K trig k s s' : rtc (allowed R K trig k) s s' -> same_core s s'.
Proof. induction 1 as [|s s1 s' (a & H1 & _) H2 IH]; [apply same_core_refl|]. eapply same_core_trans; [by eapply satom_core|done]. Qed.

Section run.
  Variable rand : nat -> nat.
  Variable face_order : list N -> list N.
  Hypothesis order_ok : forall l, face_order l ≡ₚ l.

  Lemma core_t T s : (forall n, fib_at T n = fib_at (fw_t s) n) -> (forall n, sc_at T n = sc_at (fw_t s) n) -> now T = now (fw_t s) ->
    same_core s (set_t T s).
  Proof. intros. by split. Qed.

  (** *** each call *)
  Lemma a_info trig k g s s' u : Inv s -> upd_entry k g s = Some (s', u) ->
    (forall e, like e (g e)) -> (forall e, pe_timer (g e) = pe_timer e) -> satom trig k AOther s s'.
  Proof.
    intros I (e & He & ->)%upd_entry_Some Hl Ht. destruct (pit_upd_core k g s e I He) as (H1 & H2 & H3 & H4).
    - intros pe. unfold pe_key. by rewrite (lk_interest _ _ (Hl pe)).
    - apply like_ok, Hl.
    - by eapply sa_info.
  Qed.
  Lemma a_timer trig k ms s s' u : Inv s -> set_expiry k ms s = Some (s', u) -> satom trig k (ATimer ms) s s'.
  Proof.
    intros I H. unfold set_expiry in H. apply bind_Some in H as (s0 & s1 & [= <- <-] & H). apply upd_entry_Some in H as (e & He & ->).
    set (g := fun e => PitEntry _ _ _ _ _ _ _). destruct (pit_upd_core k g s e I He) as (H1 & H2 & H3 & H4).
    - done.
    - by apply like_ok.
    - by eapply sa_timer.
  Qed.
  Lemma like_in_map (g : in_record -> in_record) l : (forall r, like_in r (g r)) -> Forall2 like_in l (map g l).
  Proof. intros H. induction l; constructor; auto. Qed.
  Lemma like_out_map (g : out_record -> out_record) l : (forall r, like_out r (g r)) -> Forall2 like_out l (map g l).
  Proof. intros H. induction l; constructor; auto. Qed.

  Lemma a_interest trig k src nonce nd f s s' b : Inv s -> (forall i, trig = Some i -> (0 <= i_lifetime i)%Z) ->
    send_interest trig src nonce nd f k s = Some (s', b) -> satom trig k (AInterest src nonce nd f) s s'.
  Proof.
    intros I Htrig H. unfold send_interest in H. apply bind_Some in H as (s0 & i & H0 & H).
    assert (Hsrc : s0 = s /\ (forall e, pit_at (fw_t s) k = Some e -> src_interest trig e src = Some i /\ (0 <= i_lifetime i)%Z)).
    { destruct src as [| |g]; simpl in H0.
      - destruct trig as [i'|]; [|done]. injection H0 as <- <-. split; [done|]. intros e He. split; [done|]. by apply Htrig.
      - apply bind_Some in H0 as (s1 & e & [-> He]%entry_Some & [= <- <-]). split; [done|]. intros e'. rewrite He. intros [= <-]. split; [done|]. by apply (iv_pit _ I k e).
      - apply bind_Some in H0 as (s1 & e & [-> He]%entry_Some & H0). destruct (find_in g (pe_in e)) as [r|] eqn:E; [|done]. injection H0 as <- <-.
        split; [done|]. intros e'. rewrite He. intros [= <-]. simpl. rewrite E. split; [done|]. apply find_in_Some in E as [E _]. by apply (iv_pit _ I k e). }
    destruct Hsrc as [-> Hsrc]. clear H0. change (without_token _) with (prepare nonce nd i) in H. set (j := prepare nonce nd i) in H.
    assert (Hd : derived i j) by apply prepare_derived.
    unfold on_outgoing_interest in H. apply bind_Some in H as (s0 & fc & [-> Hf]%face_of_Some & H).
    destruct (i_hop j) as [h|] eqn:Eh; [destruct (N.eqb_spec h 0) as [->|Hh]|]; simpl in H; [destruct (fc_local fc) eqn:El; simpl in H|..].
    2: { inv_bind H. injection H as <- <-. injection H0 as <-. eapply sa_hop0; [done|by split|done|done|done|by exists fc]. }
    all: inv_bind H; injection H0 as <- <-; inv_bind H; apply upd_entry_Some in H0 as (e & He & ->);
      inv_bind H; injection H0 as <- <-; inv_bind H; injection H0 as <- <-; injection H as <- <-;
      destruct (Hsrc e He) as (Hs & Hlife);
      destruct (pit_upd_core k (fun e => set_pe_out (insert_or_update_out f j (now (fw_t s)) (pe_out e)) e) s e I He) as (H1 & H2 & H3 & H4);
      [done|apply pe_ok_out; rewrite (de_life _ _ Hd); exact Hlife|];
      eapply (sa_interest _ _ _ _ _ e i j src nonce nd f fc); [done|by apply same_core_io|exact H2|exact Hs|exact Hd|by left|exact Hf| |exact H3|exact H4|done|done].
    all: unfold hop_zero; rewrite Eh; congruence.
  Qed.

  Lemma delete_in_find_other f g l : g <> f -> find_in g (delete_in f l) = find_in g l.
  Proof.
    intros H. unfold find_in. induction l as [|x l IH]; simpl; [done|]. destruct (N.eqb_spec (fr_face (ir_rec x)) f) as [E|E]; simpl.
    - destruct (N.eqb_spec (fr_face (ir_rec x)) g); [congruence|done].
    - destruct (fr_face (ir_rec x) =? g)%N; [done|apply IH].
  Qed.

  Lemma a_data trig k d f0 g s s' b e r : Inv s -> pit_at (fw_t s) k = Some e -> find_in g (pe_in e) = Some r -> not_back (fw_faces s) f0 g = true ->
    send_data d None g k s = Some (s', b) ->
    satom trig k (AData d f0) s s' /\ pit_at (fw_t s') k = Some (set_pe_in (delete_in g (pe_in e)) e) /\
    exists fc, fw_faces s !! g = Some fc /\
      fw_log s' = (if negb (fc_local fc) && is_localhost (d_name d) then [] else [Tx_data g d (i_token (ir_interest r))]) ++ fw_log s.
  Proof.
    intros I He Hr Hb H. unfold send_data in H. apply bind_Some in H as (s0 & e0 & [-> He1]%entry_Some & H). rewrite He in He1. injection He1 as <-.
    destruct (matches_data (pe_interest e) d) eqn:Em; [|done]. simpl in H. rewrite Hr in H. apply bind_Some in H as (s0 & u0 & H0 & H).
    apply upd_entry_Some in H0 as (e1 & He1 & ->). rewrite He in He1. injection He1 as <-.
    assert (Ht : on_outgoing_data d (i_token (ir_interest r)) g (set_t (pit_upd k (fun e => set_pe_in (delete_in g (pe_in e)) e) (fw_t s)) s) = Some (s', b)).
    { by destruct (i_token (ir_interest r)). } clear H.
    destruct (pit_upd_core k (fun e => set_pe_in (delete_in g (pe_in e)) e) s e I He) as (H1 & H2 & H3 & H4); [done|apply pe_ok_del_in|].
    unfold on_outgoing_data in Ht. apply bind_Some in Ht as (s0 & s1 & [= <- <-] & Ht). simpl in Ht.
    destruct (ef_in _ _ (iv_pit _ I k e He) r) as [fc Hfc]; [by eapply find_in_Some|].
    pose proof (proj2 (find_in_Some _ _ _ Hr)) as Hg. rewrite Hg in Hfc. rewrite Hfc in Ht.
    assert (Hk : forall l c, pit_at (fw_t (set_cnt c (set_log l (set_t (pit_upd k (fun e => set_pe_in (delete_in g (pe_in e)) e) (fw_t s)) s)))) k = Some (set_pe_in (delete_in g (pe_in e)) e)).
    { intros l c. destruct H3 as [_ H3]. specialize (H3 k). by rewrite decide_True in H3. }
    assert (Had : g = f0 -> fc_link fc = LINK_AD_HOC).
    { intros <-. unfold not_back in Hb. rewrite N.eqb_refl, Hfc in Hb. unfold is_adhoc in Hb. by destruct (fc_link fc). }
    destruct (fc_local fc) eqn:El; [|destruct (is_localhost (d_name d)) eqn:Es]; simpl in Ht.
    - repeat (apply bind_Some in Ht as (? & ? & Hx & Ht); injection Hx as <- <-). injection Ht as <- <-.
      split; [eapply (sa_data _ _ _ _ _ e r d f0 g fc); [done|by apply same_core_io|exact H2|done|done|done|done|exact H3|exact H4|done|done|done]|].
      split; [apply Hk|]. exists fc. by rewrite El.
    - injection Ht as <- <-. split; [eapply (sa_drop _ _ _ _ _ e r d f0 g fc); try done|]. split; [apply (Hk (fw_log s) (fw_cnt s))|]. exists fc. by rewrite El.
    - repeat (apply bind_Some in Ht as (? & ? & Hx & Ht); injection Hx as <- <-). injection Ht as <- <-.
      split; [eapply (sa_data _ _ _ _ _ e r d f0 g fc); [done|by apply same_core_io|exact H2|done|done|done|congruence|exact H3|exact H4|done|done|done]|].
      split; [apply Hk|]. exists fc. by rewrite El.
  Qed.

  (** the Data packets sent to a list of downstreams, newest first *)
  Fixpoint replies (F : gmap N face) (d : data) (e : pit_entry) (l : list N) : list io :=
    match l with
    | [] => []
    | g :: l' => replies F d e l' ++
        match F !! g, find_in g (pe_in e) with
        | Some fc, Some r => if negb (fc_local fc) && is_localhost (d_name d) then [] else [Tx_data g d (i_token (ir_interest r))]
        | _, _ => []
        end
    end.
  Lemma replies_ext F d e e' l : (forall g, g ∈ l -> find_in g (pe_in e') = find_in g (pe_in e)) -> replies F d e' l = replies F d e l.
  Proof.
    induction l as [|g l IH]; intros H; simpl; [done|]. rewrite IH by (intros; apply H; by right). by rewrite H by (by left).
  Qed.

  (** sending to a list of different downstreams *)
  Lemma a_data_list trig k d f0 l s s' u e : Inv s -> pit_at (fw_t s) k = Some e -> NoDup l -> (forall g, g ∈ l -> is_Some (find_in g (pe_in e)) /\ not_back (fw_faces s) f0 g = true) ->
    each l (fun g => bind (send_data d None g k) (fun _ => ret tt)) s = Some (s', u) ->
    rtc (satom trig k (AData d f0)) s s' /\ fw_log s' = replies (fw_faces s) d e l ++ fw_log s /\
    exists e', pit_at (fw_t s') k = Some e' /\ forall g, find_in g (pe_in e') = if bool_decide (g ∈ l) then None else find_in g (pe_in e).
  Proof.
    revert s e. induction l as [|g l IH]; intros s e I He Hn Hl H; simpl in H.
    { injection H as <- <-. split; [done|]. split; [done|]. exists e. split; [done|]. intros g. by rewrite bool_decide_eq_false_2 by apply not_elem_of_nil. }
    apply bind_Some in H as (s0 & u0 & H0 & H). apply bind_Some in H0 as (s1 & b1 & H1 & H0). injection H0 as -> _. apply NoDup_cons in Hn as [Hg Hn].
    destruct (Hl g) as [[r Hr] Hb]; [by left|]. destruct (a_data trig k d f0 g s s0 _ e r I He Hr Hb H1) as (Ha & He' & fc & Hfc & Hlog).
    destruct (IH s0 (set_pe_in (delete_in g (pe_in e)) e)) as (IH1 & IH2 & e' & IH3 & IH4); [by eapply satom_inv|exact He'|done| |done|].
    { intros g' Hg'. simpl. rewrite delete_in_find_other by (intros ->; done). rewrite (sc_faces _ _ (satom_core _ _ _ _ _ Ha)). apply Hl. by right. }
    rewrite (sc_faces _ _ (satom_core _ _ _ _ _ Ha)) in IH2.
    split; [by econstructor|]. split.
    - rewrite IH2, Hlog. simpl. rewrite Hfc, Hr. rewrite app_assoc. f_equal. f_equal. apply replies_ext. intros g' Hg'. simpl.
      apply delete_in_find_other. intros ->. done.
    - exists e'. split; [done|]. intros g'. rewrite IH4. simpl. destruct (decide (g' ∈ l)) as [Hin|Hin].
      + rewrite !bool_decide_eq_true_2 by (try done; by right). done.
      + rewrite (bool_decide_eq_false_2 (g' ∈ l)) by done. destruct (decide (g' = g)) as [->|Hne].
        * rewrite bool_decide_eq_true_2 by (by left). destruct (find_in g (delete_in g (pe_in e))) as [r'|] eqn:E; [|done]. exfalso.
          destruct (entry_ok _ _ _ I He) as [Hok _]. apply find_in_Some in E as [E1 E2].
          pose proof (pk_in _ _ Hok) as Hnd. clear -E1 E2 Hnd. induction (pe_in e) as [|x l IH]; simpl in E1; [by apply elem_of_nil in E1|].
          rewrite rec_faces_in_cons in Hnd. apply NoDup_cons in Hnd as [Hx Hnd].
          destruct (N.eqb_spec (fr_face (ir_rec x)) g) as [Ex|Ex].
          -- apply Hx. rewrite Ex, <- E2. apply elem_of_list_In, in_map_iff. exists r'. split; [done|by apply elem_of_list_In].
          -- apply elem_of_cons in E1 as [->|E1]; [done|by apply IH].
        * rewrite bool_decide_eq_false_2 by (by intros [?|?]%elem_of_cons). by apply delete_in_find_other.
  Qed.

  Lemma sublist_NoDup {A} (l1 l2 : list A) : l1 `sublist_of` l2 -> NoDup l2 -> NoDup l1.
  Proof.
    induction 1 as [|x l1 l2 H IH|x l1 l2 H IH]; intros Hn; [constructor|..]; apply NoDup_cons in Hn as [Hx Hn]; [|by apply IH].
    apply NoDup_cons. split; [|by apply IH]. intros Hx'. apply Hx. eapply elem_of_submseteq; [exact Hx'|]. by apply sublist_submseteq.
  Qed.
  Lemma pending_elem t e g : g ∈ pending_downstreams t e <-> exists r, r ∈ pe_in e /\ fr_face (ir_rec r) = g /\ (t < fr_expiry (ir_rec r))%Z.
  Proof.
    unfold pending_downstreams. rewrite elem_of_list_In, in_map_iff. split.
    - intros (r & <- & Hr). apply filter_In in Hr as [Hr Ht]. exists r. split; [by apply elem_of_list_In|]. split; [done|]. by apply Z.ltb_lt.
    - intros (r & Hr & <- & Ht). exists r. split; [done|]. apply filter_In. split; [by apply elem_of_list_In|by apply Z.ltb_lt].
  Qed.
  Lemma pending_nodup t e : pe_ok t e -> forall t', NoDup (pending_downstreams t' e) /\ forall g, g ∈ pending_downstreams t' e -> is_Some (find_in g (pe_in e)).
  Proof.
    intros [H _ _ _] t'. split.
    - unfold pending_downstreams. apply (sublist_NoDup _ (rec_faces_in (pe_in e))); [|exact H]. induction (pe_in e) as [|x l IH]; simpl; [constructor|].
      rewrite rec_faces_in_cons in H |- *. apply NoDup_cons in H as [_ H].
      destruct (t' <? fr_expiry (ir_rec x))%Z; simpl; [apply sublist_skip|apply sublist_cons]; by apply IH.
    - intros g (r & Hr & <- & _)%pending_elem. exists r. by apply elem_find_in.
  Qed.
  Lemma sublist_filter {A} (P : A -> bool) l : List.filter P l `sublist_of` l.
  Proof. induction l as [|x l IH]; simpl; [constructor|]. destruct (P x); [by apply sublist_skip|by apply sublist_cons]. Qed.

  Lemma a_data_all trig k d f s s' u : Inv s -> send_data_to_all face_order d f k s = Some (s', u) ->
    exists e, pit_at (fw_t s) k = Some e /\
    let l := face_order (List.filter (not_back (fw_faces s) f) (pending_downstreams (now (fw_t s)) e)) in
    rtc (satom trig k (AData d f)) s s' /\ NoDup l /\ fw_log s' = replies (fw_faces s) d e l ++ fw_log s /\
    exists e', pit_at (fw_t s') k = Some e' /\ forall g, find_in g (pe_in e') = if bool_decide (g ∈ l) then None else find_in g (pe_in e).
  Proof.
    intros I H. unfold send_data_to_all in H. apply bind_Some in H as (s0 & s1 & [= <- <-] & H). apply bind_Some in H as (s0 & e & [-> He]%entry_Some & H).
    exists e. split; [done|]. intros l.
    destruct (entry_ok _ _ _ I He) as [Hok _]. destruct (pending_nodup _ _ Hok (now (fw_t s))) as [Hn Hp].
    set (l0 := List.filter _ _) in *. assert (Hsub : l0 `sublist_of` pending_downstreams (now (fw_t s)) e) by apply sublist_filter.
    assert (Hn' : NoDup l0) by (by eapply sublist_NoDup).
    assert (Hl : l ≡ₚ l0) by apply order_ok.
    assert (NoDup l) by (by rewrite Hl).
    destruct (a_data_list trig k d f l s s' u e) as (A1 & A2 & A3); [done|exact He|done| |exact H|].
    - intros g Hg. rewrite Hl in Hg. split.
      + apply Hp. eapply elem_of_submseteq; [exact Hg|]. by apply sublist_submseteq.
      + unfold l0 in Hg. apply elem_of_list_In, filter_In in Hg. apply Hg.
    - done.
  Qed.

  Lemma a_nack trig k reason f s s' b : Inv s -> on_outgoing_nack reason f k s = Some (s', b) -> s' = s \/ satom trig k (ANack reason f) s s'.
  Proof.
    intros I H. unfold on_outgoing_nack in H. apply bind_Some in H as (s0 & s1 & [= <- <-] & H). destruct (fw_faces s !! f) as [fc|] eqn:Ef; [|injection H as <- <-; by left].
    apply bind_Some in H as (s0 & e & [-> He]%entry_Some & H). destruct (find_in f (pe_in e)) as [r|] eqn:Er; [|injection H as <- <-; by left].
    destruct (is_p2p fc) eqn:Ep; simpl in H; [|injection H as <- <-; by left]. apply bind_Some in H as (s0 & u0 & H0 & H). apply upd_entry_Some in H0 as (e1 & He1 & ->).
    rewrite He in He1. injection He1 as <-. repeat (apply bind_Some in H as (? & ? & Hx & H); injection Hx as <- <-). injection H as <- <-.
    destruct (pit_upd_core k (fun e => set_pe_in (delete_in f (pe_in e)) e) s e I He) as (H1 & H2 & H3 & H4); [done|apply pe_ok_del_in|].
    right. eapply (sa_nack _ _ _ _ _ e r f fc reason); try done; [by apply same_core_io|]. unfold is_p2p in Ep. by destruct (fc_link fc).
  Qed.

  Lemma a_meas trig k (g : tables -> option tables) s s' u : tab g s = Some (s', u) ->
    (forall T, g (fw_t s) = Some T -> tab_inv T /\ pit_n T = pit_n (fw_t s) /\ exists n v, only_meas_at n v (fw_t s) T) -> satom trig k AOther s s'.
  Proof.
    unfold tab. destruct (g (fw_t s)) as [T|]; [|done]. intros [= <- <-] H. destruct (H T eq_refl) as (It & Hpn & n & v & Hm).
    pose proof (only_meas_frame _ _ _ _ Hm) as (_ & [Hf _] & [Hp _] & [Hs _] & Hn).
    apply sa_none; [done|by apply core_t|done| |done|done|done]. intros k'. simpl. apply Hp.
  Qed.

  Section contract.
    Variable R : fw -> Prop.
    Variable K : fw -> act -> Prop.
    Variable trig : option interest.
    Variable k : pit_key.
    (** whatever the calls so far have done, the state that is read satisfies [R] *)
    Variable Q : fw -> Prop.
    Hypothesis Qstep : forall s a s', Q s -> satom trig k a s s' -> Q s'.
    Hypothesis QR : forall s, Q s -> R s.
    Hypothesis KO : forall s, K s AOther.
    Hypothesis Htrig : forall i, trig = Some i -> (0 <= i_lifetime i)%Z.

    Lemma run_obeys p : forall lr s s' u, Inv s -> Q s -> Q lr -> obeys R K lr p ->
      run rand face_order trig k p s = Some (s', u) -> rtc (allowed Q K trig k) s s'.
    Proof.
      assert (Hgo : forall a s s1 lr (q : sprog), Inv s -> Q s -> Q lr -> K lr a -> satom trig k a s s1 ->
        (forall lr s s' u, Inv s -> Q s -> Q lr -> obeys R K lr q -> run rand face_order trig k q s = Some (s', u) -> rtc (allowed Q K trig k) s s') ->
        obeys R K lr q -> forall s' u, run rand face_order trig k q s1 = Some (s', u) -> rtc (allowed Q K trig k) s s').
      { intros a s s1 lr q I HQ Hlr HK Ha IH Ho s' u H. econstructor; [exists a; split; [exact Ha|by exists lr]|].
        eapply IH; [by eapply satom_inv|eapply Qstep; [|exact Ha]; done|exact Hlr|exact Ho|exact H]. }
      assert (Hgos : forall a s s1 lr (q : sprog), Inv s -> Q s -> Q lr -> K lr a -> rtc (satom trig k a) s s1 ->
        (forall lr s s' u, Inv s -> Q s -> Q lr -> obeys R K lr q -> run rand face_order trig k q s = Some (s', u) -> rtc (allowed Q K trig k) s s') ->
        obeys R K lr q -> forall s' u, run rand face_order trig k q s1 = Some (s', u) -> rtc (allowed Q K trig k) s s').
      { intros a s s1 lr q I HQ Hlr HK Ha IH Ho s' u H. induction Ha as [|s s0 s1 Ha Has IHa]; [by eapply IH|].
        econstructor; [exists a; split; [exact Ha|by exists lr]|]. apply IHa; [by eapply satom_inv|eapply Qstep; [|exact Ha]; done|done]. }
      induction p as [| |q IH|q IH|src nonce nd f q IH|d f q IH|reason f q IH|ms q IH|si q IH|f si q IH|f si q IH|n q IH|n life q IH|n si q IH|pr q IH];
        intros lr s s' u I HQ Hlr Ho H; simpl in H; inversion Ho; subst.
      - by injection H as <- <-.
      - done.
      - apply bind_Some in H as (s0 & s1 & [= <- <-] & H). eapply (IH s s); [done|done|done| |exact H]. auto.
      - apply bind_Some in H as (s0 & s1 & [= <- <-] & H). set (s1 := set_rand _ s) in H. assert (Ha : satom trig k AOther s s1) by (apply sa_none; [done|by split|apply I|done|done|done|done]).
        eapply Hgo; [done|done|exact Hlr|apply KO|exact Ha|apply IH|auto|exact H].
      - apply bind_Some in H as (s0 & b & H0 & H). pose proof (a_interest _ _ _ _ _ _ _ _ _ I Htrig H0) as Ha. eapply Hgo; [done|done|exact Hlr| |exact Ha|apply IH|auto|exact H]. done.
      - apply bind_Some in H as (s0 & b & H0 & H). destruct (a_data_all trig _ _ _ _ _ _ I H0) as (e & _ & Ha & _). eapply Hgos; [done|done|exact Hlr| |exact Ha|apply IH|auto|exact H]. done.
      - apply bind_Some in H as (s0 & b & H0 & H). destruct (a_nack trig _ _ _ _ _ _ I H0) as [->|Ha]; [by eapply IH|]. eapply Hgo; [done|done|exact Hlr| |exact Ha|apply IH|auto|exact H]. done.
      - apply bind_Some in H as (s0 & b & H0 & H). pose proof (a_timer trig _ _ _ _ _ I H0) as Ha. eapply Hgo; [done|done|exact Hlr| |exact Ha|apply IH|auto|exact H]. done.
      - apply bind_Some in H as (s0 & b & H0 & H). assert (Ha : satom trig k AOther s s0) by (eapply a_info; [done|exact H0|by split|done]).
        eapply Hgo; [done|done|exact Hlr|apply KO|exact Ha|apply IH|auto|exact H].
      - apply bind_Some in H as (s0 & b & H0 & H). assert (Ha : satom trig k AOther s s0).
        { eapply a_info; [done|exact H0| |done]. intros e. split; [done| |done|done|done]. apply like_in_map. intros r. by destruct (fr_face (ir_rec r) =? f)%N. }
        eapply Hgo; [done|done|exact Hlr|apply KO|exact Ha|apply IH|auto|exact H].
      - apply bind_Some in H as (s0 & b & H0 & H). assert (Ha : satom trig k AOther s s0).
        { eapply a_info; [done|exact H0| |done]. intros e. split; [done|done| |done|done]. apply like_out_map. intros r. by destruct (fr_face (or_rec r) =? f)%N. }
        eapply Hgo; [done|done|exact Hlr|apply KO|exact Ha|apply IH|auto|exact H].
      - apply bind_Some in H as (s0 & b & H0 & H). assert (Ha : satom trig k AOther s s0).
        { eapply a_meas; [exact H0|]. intros T. pose proof (iv_tab _ I) as It. unfold meas_get.
          destruct (meas_get_at_ok (take (Nat.min (length n) MAX_DEPTH) n) (fw_t s) (ti_tree _ It) (ti_meas _ It)) as (T1 & T' & -> & -> & G1 & G2 & G3 & _).
          { rewrite take_length. unfold MAX_DEPTH. lia. }
          intros [= <-]. split; [eapply only_meas_inv; [exact It|done|done|exact G3]|]. split; [apply G3|eauto]. }
        eapply Hgo; [done|done|exact Hlr|apply KO|exact Ha|apply IH|auto|exact H].
      - apply bind_Some in H as (s0 & b & H0 & H). assert (Ha : satom trig k AOther s s0).
        { eapply a_meas; [exact H0|]. intros T HT. pose proof (iv_tab _ I) as It.
          assert (Hm : is_Some (meas_at (fw_t s) n)) by (unfold meas_extend in HT; unfold meas_at; destruct (tr (fw_t s) !! n) as [e|]; [destruct (e_meas e); [by eexists|done]|done]).
          destruct Hm as [m Hm]. destruct (meas_extend_ok n life (fw_t s) m (ti_tree _ It) (ti_meas _ It) Hm) as (T' & HT' & G1 & G2 & G3 & _).
          rewrite HT in HT'. injection HT' as <-. split; [eapply only_meas_inv; [exact It|done|done|exact G3]|]. split; [apply G3|eauto]. }
        eapply Hgo; [done|done|exact Hlr|apply KO|exact Ha|apply IH|auto|exact H].
      - apply bind_Some in H as (s0 & b & H0 & H). assert (Ha : satom trig k AOther s s0).
        { eapply a_meas; [exact H0|]. intros T HT. pose proof (iv_tab _ I) as It.
          assert (Hm : exists m, meas_at (fw_t s) n = Some m /\ T = upd n (fun e => set_meas (option_map (fun m => MeasEntry (me_name m) (me_expiry m) (me_timer m) si) (e_meas e)) e) (fw_t s)).
          { cbv beta in HT. unfold meas_at. destruct (tr (fw_t s) !! n) as [e|]; [|done]. destruct (e_meas e) as [m|]; [|done]. injection HT as <-. by exists m. }
          destruct Hm as (m & Hm & ->). set (T' := upd _ _ _).
          assert (Hoo : only_meas_at n (Some (MeasEntry (me_name m) (me_expiry m) (me_timer m) si)) (fw_t s) T').
          { split; [|done]. intros k'. unfold T'. rewrite upd_att by (apply meas_at_present; by eexists). case_decide; [|done].
            rewrite meas_at_att in Hm. by rewrite Hm. }
          destruct (proj1 (ti_meas _ It) n m Hm) as (Hn1 & Hn2 & Hn3).
          split; [|split; [done|eauto]]. eapply only_meas_inv; [exact It| | |exact Hoo].
          - apply upd_tree_ok, It.
          - by eapply meas_set_ok; [apply It|exact Hoo|exact Hm|..]. }
        eapply Hgo; [done|done|exact Hlr|apply KO|exact Ha|apply IH|auto|exact H].
      - apply bind_Some in H as (s0 & b & [= <- <-] & H). set (s1 := set_priv _ s) in H. assert (Ha : satom trig k AOther s s1) by (apply sa_none; [done|by split|apply I|done|done|done|done]).
        eapply Hgo; [done|done|exact Hlr|apply KO|exact Ha|apply IH|auto|exact H].
    Qed.
  End contract.

  Lemma obeys_any p : forall s, obeys (fun _ => True) (fun _ _ => True) s p.
  Proof. induction p; intros; constructor; auto. Qed.
  Lemma run_satoms trig k p s s' u : Inv s -> (forall i, trig = Some i -> (0 <= i_lifetime i)%Z) ->
    run rand face_order trig k p s = Some (s', u) -> rtc (anyk trig k) s s'.
  Proof. intros I Ht H. eapply (run_obeys (fun _ => True) (fun _ _ => True) trig k (fun _ => True)); [done|done|done|done|done|done|done|apply (obeys_any p s)|exact H]. Qed.
End run.
