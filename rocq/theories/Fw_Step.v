(** What one event sends, and why *)
From stdpp Require Import gmap.
From Verif Require Import Lib Name_Model Name_Proof Packet_Model Nt_Model Nt_Spec Nt_Tree Tree_Model Tree_Proof Tab_Model Tab_Spec Tab_At Tab_Fib Tab_Pit Tab_Pit2 Tab_Meas Tab_Sc Tab_Clean Tab_Run Tab_Main Fw_Model Fw_Spec Fw_Inv Fw_Case Fw_Case2 Fw_Case3 Fw_Hist Fw_Acc.
From Verif Require Cs_Model Cs_Spec Cs_Main Cs_Run Dnl_Model.

(** ** In-records only go *)
Definition thin (s s' : fw) : Prop :=
  fw_faces s' = fw_faces s /\ now (fw_t s') = now (fw_t s) /\
  forall k e', pit_at (fw_t s') k = Some e' -> exists e, pit_at (fw_t s) k = Some e /\ pe_interest e' = pe_interest e /\
    forall g r', find_in g (pe_in e') = Some r' -> exists r, find_in g (pe_in e) = Some r /\ like_in r r'.
Definition in_gone (s : fw) (k : pit_key) (g : N) : Prop := forall e, pit_at (fw_t s) k = Some e -> find_in g (pe_in e) = None.
Lemma thin_refl s : thin s s.
Proof. split; [done|]. split; [done|]. intros k e He. exists e. split; [done|]. split; [done|]. intros g r Hr. by exists r. Qed.
Lemma thin_trans s1 s2 s3 : thin s1 s2 -> thin s2 s3 -> thin s1 s3.
Proof.
  intros (A1 & A2 & A3) (B1 & B2 & B3). split; [congruence|]. split; [congruence|]. intros k e3 He3. destruct (B3 k e3 He3) as (e2 & He2 & Hi2 & H2).
  destruct (A3 k e2 He2) as (e1 & He1 & Hi1 & H1). exists e1. split; [done|]. split; [congruence|]. intros g r3 (r2 & Hr2 & L2)%H2. destruct (H1 g r2 Hr2) as (r1 & Hr1 & L1).
  exists r1. split; [done|]. by eapply like_in_trans.
Qed.
Lemma thin_gone s s' k g : thin s s' -> in_gone s k g -> in_gone s' k g.
Proof.
  intros (_ & _ & H) Hg e' He'. destruct (H k e' He') as (e & He & _ & Hr). destruct (find_in g (pe_in e')) as [r'|] eqn:E; [|done].
  destruct (Hr g r' E) as (r & Hr' & _). by rewrite (Hg e He) in Hr'.
Qed.
Lemma thin_same s s' : fw_t s' = fw_t s -> fw_faces s' = fw_faces s -> thin s s'.
Proof. intros Ht Hf. split; [done|]. rewrite Ht. split; [done|]. intros k e He. exists e. split; [done|]. split; [done|]. intros g r Hr. by exists r. Qed.
Lemma thin_entry k e e' s s' : fw_faces s' = fw_faces s -> now (fw_t s') = now (fw_t s) -> entry_to k e e' s s' -> pe_interest e' = pe_interest e ->
  (forall g r', find_in g (pe_in e') = Some r' -> exists r, find_in g (pe_in e) = Some r /\ like_in r r') -> thin s s'.
Proof.
  intros Hf Hn [E1 E2] Hi Hr. split; [done|]. split; [done|]. intros k0 e0. rewrite E2. case_decide as Ek.
  - intros [= <-]. subst k0. by exists e.
  - intros He0. exists e0. split; [done|]. split; [done|]. intros g r Hg. by exists r.
Qed.
Lemma wrote_thin k e e' s s' : wrote k e e' s s' -> pe_interest e' = pe_interest e ->
  (forall g r', find_in g (pe_in e') = Some r' -> exists r, find_in g (pe_in e) = Some r /\ like_in r r') -> thin s s'.
Proof. intros [_ C E _ _ _] Hi Hr. eapply thin_entry; [apply C|apply C|exact E|done|done]. Qed.
Lemma wrote_thin_in k e e' s s' : wrote k e e' s s' -> pe_interest e' = pe_interest e -> pe_in e' = pe_in e -> thin s s'.
Proof. intros Hw Hi Hin. eapply wrote_thin; [exact Hw|done|]. rewrite Hin. intros g r Hr. by exists r. Qed.
Lemma env_thin s s' : env s s' -> fw_faces s' = fw_faces s -> now (fw_t s') = now (fw_t s) -> thin s s'.
Proof.
  intros E Hf Hn. split; [done|]. split; [done|]. intros k e' He'. pose proof (en_pits _ _ E k) as Hx. rewrite He' in Hx. inversion Hx as [e e0 [L _] He|]; subst.
  exists e. split; [done|]. split; [apply L|]. intros g r' Hr'. pose proof (like_find_in g _ _ (lk_in _ _ L)) as H. rewrite Hr' in H. destruct (find_in g (pe_in e)) as [r|]; [|done]. by exists r.
Qed.
Lemma satom_thin trig k a s s' : Inv s -> satom trig k a s s' -> thin s s'.
Proof.
  intros I Ha. pose proof (satom_core _ _ _ _ _ Ha) as C. destruct (satom_entry _ _ _ _ _ I Ha) as (H1 & _ & H3).
  split; [apply C|]. split; [apply C|]. intros k0 e' He'. destruct (decide (k0 = k)) as [->|Hk].
  - destruct (pit_at (fw_t s) k) as [e|] eqn:E.
    + destruct (H3 e eq_refl) as (e2 & He2 & Hth). rewrite He' in He2. injection He2 as <-. exists e. split; [done|]. split; apply Hth.
    + exfalso. destruct Ha as [? ? T Ep|e e2 ? ? T [Ep _]|e e2 ms ? ? T [Ep _]|e i j src nonce nd f fc ? ? T Hs Hd Hj Hf Hh [Ep _]|src nonce nd f ? ? Ep
        |e r d f0 f fc ? ? T Hr' Hm Hf Hl [Ep _]|e r d f0 f fc ? ? T Hr' Hm Hf Hl Hl' [Ep _]|e r f fc reason ? ? T Hr' Hf Hl [Ep _]]; try congruence.
      all: rewrite Ep in He'; congruence.
  - rewrite H1 in He' by done. exists e'. split; [done|]. split; [done|]. intros g r Hr. by exists r.
Qed.
Lemma delete_in_none f l : NoDup (rec_faces_in l) -> find_in f (delete_in f l) = None.
Proof. intros Hn. destruct (find_in f (delete_in f l)) as [r|] eqn:E; [|done]. apply delete_in_find in E; [|done]. by destruct E as [_ []]. Qed.
Lemma entry_gone k e f s s' : Inv s -> entry_to k e (set_pe_in (delete_in f (pe_in e)) e) s s' -> in_gone s' k f.
Proof.
  intros I [E1 E2] e0. rewrite E2, decide_True by done. intros [= <-]. simpl. apply delete_in_none. destruct (entry_ok _ _ _ I E1) as [[N1 _ _ _] _]. exact N1.
Qed.

(** ** What a strategy sends while it works on entry [k] *)
(** [fresh f j]: the in-record of face [f] with Interest [j] was made by this very event *)
Definition in_from (fresh : N -> interest -> Prop) (s : fw) (k : pit_key) (f : N) (j : interest) : Prop :=
  fresh f j \/ exists r, in_record_of s k f r /\ ir_interest r = j.
Definition no_fresh (f : N) (j : interest) : Prop := False.
Definition lr_ok (fresh : N -> interest -> Prop) (s : fw) (k : pit_key) (lr : fw) : Prop :=
  fw_faces lr = fw_faces s /\ forall f r, in_record_of lr k f r -> in_from fresh s k f (ir_interest r).
Inductive sio (fresh : N -> interest -> Prop) (K : fw -> act -> Prop) (k : pit_key) (s s' : fw) : io -> Prop :=
| si_interest g j fc lr src nonce nd : lr_ok fresh s k lr -> K lr (AInterest src nonce nd g) -> fw_faces s !! g = Some fc -> (hop_zero j -> fc_local fc = true) ->
    key_of j = k -> sio fresh K k s s' (Tx_interest g j)
| si_data g d fc f0 lr j : lr_ok fresh s k lr -> K lr (AData d f0) -> fw_faces s !! g = Some fc -> (is_localhost (d_name d) = true -> fc_local fc = true) ->
    (g = f0 -> fc_link fc = LINK_AD_HOC) -> in_from fresh s k g j -> satisfies k d -> in_gone s' k g -> sio fresh K k s s' (Tx_data g d (i_token j))
| si_nack g j reason fc lr : lr_ok fresh s k lr -> K lr (ANack reason g) -> fw_faces s !! g = Some fc -> fc_link fc = LINK_P2P -> key_of j = k ->
    in_from fresh s k g j -> in_gone s' k g -> sio fresh K k s s' (Tx_nack g j reason).
Lemma in_from_mono fresh s s1 k f j : (forall f r, in_record_of s1 k f r -> in_from fresh s k f (ir_interest r)) -> in_from no_fresh s1 k f j -> in_from fresh s k f j.
Proof. intros H [[]|(r & Hr & <-)]. by apply H. Qed.
Lemma sio_mono fresh K k s s1 s2 s' x : fw_faces s1 = fw_faces s -> (forall f r, in_record_of s1 k f r -> in_from fresh s k f (ir_interest r)) -> thin s2 s' ->
  sio no_fresh K k s1 s2 x -> sio fresh K k s s' x.
Proof.
  intros Hf Hin Ht H. assert (Hlr : forall lr, lr_ok no_fresh s1 k lr -> lr_ok fresh s k lr).
  { intros lr [L1 L2]. split; [congruence|]. intros f r Hr%L2. by eapply in_from_mono. }
  destruct H as [g j fc lr src nonce nd L HK Hg Hz Hk|g d fc f0 lr j L HK Hg Hl Hb Hi Hs Hgone|g j reason fc lr L HK Hg Hp Hk Hi Hgone]; rewrite Hf in Hg.
  - eapply si_interest; eauto.
  - eapply si_data; eauto; [by eapply in_from_mono|by eapply thin_gone].
  - eapply si_nack; eauto; [by eapply in_from_mono|by eapply thin_gone].
Qed.
Lemma thin_in s s1 k f r : Inv s -> thin s s1 -> in_record_of s1 k f r -> Inv s1 -> in_from no_fresh s k f (ir_interest r).
Proof.
  intros I (_ & _ & H) (e1 & He1 & Hr & <-) I1. right. destruct (H k e1 He1) as (e & He & _ & Hin).
  destruct (entry_ok _ _ _ I1 He1) as [[N1 _ _ _] _]. pose proof (elem_find_in _ _ N1 Hr) as Hfi. destruct (Hin _ _ Hfi) as (r0 & Hr0 & [(Hf0 & _) Hi0]).
  apply find_in_Some in Hr0 as [Hr0 Hf]. exists r0. split; [|done]. by exists e.
Qed.
Lemma sio_thin K k s s1 s2 s' x : Inv s -> Inv s1 -> thin s s1 -> thin s2 s' -> sio no_fresh K k s1 s2 x -> sio no_fresh K k s s' x.
Proof. intros I I1 T1 T2. eapply sio_mono; [apply T1| |done]. intros f r Hr. by eapply thin_in. Qed.

Lemma satoms_io (Q : fw -> Prop) K trig k s s' : Inv s -> (forall i, trig = Some i -> key_of i = k) -> (forall lr, Q lr -> lr_ok no_fresh s k lr) ->
  rtc (allowed Q K trig k) s s' -> thin s s' /\ exists l, added s s' l /\ forall x, x ∈ l -> sio no_fresh K k s s' x.
Proof.
  intros I Ht HQ H.
  cut (forall s00, Inv s00 -> thin s00 s -> (forall lr, Q lr -> lr_ok no_fresh s00 k lr) -> thin s s' /\ exists l, added s s' l /\ forall x, x ∈ l -> sio no_fresh K k s00 s' x).
  { intros Hc. apply (Hc s); [done|apply thin_refl|done]. }
  clear HQ. intros s00 I0 T0 HQ. revert I T0. induction H as [s|s s1 s' (a & Ha & lr & Hlr & HK) H2 IH]; intros I T0.
  { split; [apply thin_refl|]. exists []. split; [done|]. intros x Hx. by apply elem_of_nil in Hx. }
  assert (I1 : Inv s1) by (by eapply satom_inv). pose proof (satom_thin _ _ _ _ _ I Ha) as T1.
  destruct (IH I1 (thin_trans _ _ _ T0 T1)) as (T2 & l & Hl & Hx). split; [by eapply thin_trans|]. apply HQ in Hlr.
  assert (Hh : fw_log s1 = fw_log s \/ exists x, fw_log s1 = x :: fw_log s /\ sio no_fresh K k s00 s' x).
  { assert (Hff : fw_faces s = fw_faces s00) by apply T0.
    assert (Hino : forall e g r, pit_at (fw_t s) k = Some e -> find_in g (pe_in e) = Some r -> in_from no_fresh s00 k g (ir_interest r)).
    { intros e g r He [Hr Hf]%find_in_Some. eapply thin_in; [exact I0|exact T0| |done]. by exists e. }
    destruct Ha as [? C T E Hn Hlg Hc|e e' ? C T E L Hn Htm Hlg Hc|e e' ms ? C T E L Hn Htm Hlg Hc|e i j src nonce nd f fc -> C T Hs Hd Hj Hf Hh E Hn Hlg Hc|src nonce nd f ? C E Hlg Hc
    |e r d f0 f fc -> C T Hr Hm Hf Hlo E Hn Hlg Hc Hb|e r d f0 f fc ? C T Hr Hm Hf Hlo Hlo' E Hn Hlg Hc|e r f fc reason -> C T Hr Hf Hlo E Hn Hlg Hc]; try (by left); right; eexists; (split; [exact Hlg|]).
    - rewrite Hff in Hf. eapply si_interest; [exact Hlr|exact HK|exact Hf|done|]. rewrite (de_key _ _ Hd). destruct E as [E _]. destruct (entry_ok _ _ _ I E) as [Hok Hk].
      destruct src as [| |g]; simpl in Hs; [by apply Ht|by injection Hs as <-|]. destruct (find_in g (pe_in e)) as [r|] eqn:Er; [|done]. injection Hs as <-. apply find_in_Some in Er as [Er _].
      rewrite <- Hk. apply (pk_in_ok _ _ Hok r Er).
    - rewrite Hff in Hf. eapply si_data; [exact Hlr|exact HK|exact Hf|done|done|eapply Hino; [apply E|exact Hr]| |].
      + eapply satisfies_key; [|exact Hm]. by eapply (entry_ok s), E.
      + eapply thin_gone; [exact T2|]. eapply entry_gone; [exact I|exact E].
    - rewrite Hff in Hf. eapply si_nack; [exact Hlr|exact HK|exact Hf|done| |eapply Hino; [apply E|exact Hr]|].
      + destruct E as [E _]. destruct (entry_ok _ _ _ I E) as [Hok Hk]. apply find_in_Some in Hr as [Hr _]. rewrite <- Hk. apply (pk_in_ok _ _ Hok r Hr).
      + eapply thin_gone; [exact T2|]. eapply entry_gone; [exact I|exact E]. }
  unfold added in *. destruct Hh as [Hh|(x & Hh & Hsx)].
  - exists l. split; [by rewrite Hl, Hh|done].
  - exists (l ++ [x]). split; [by rewrite Hl, Hh, <- app_assoc|]. intros y [Hy|Hy]%elem_of_app; [by apply Hx|]. apply elem_of_list_singleton in Hy. by subst.
Qed.

Section step.
  Variable sort_nexthops : list nexthop -> list nexthop.
  Variable create_strategy : name -> create_result.
  Variable same_type : name -> name -> bool.
  Variable make_entry : name -> N -> Dnl_Model.fingerprint.
  Variable rand : nat -> nat.
  Variable face_order : list N -> list N.
  Variable strategies : name -> strategy.
  Hypothesis W : world_ok sort_nexthops same_type face_order.
  Notation event_fn := (fw_event sort_nexthops create_strategy same_type make_entry rand face_order strategies).

  Lemma inv_sees s : Inv s -> sees (fw_faces s) s.
  Proof.
    intros I. split; [done|]. intros k f r (e & He & Hr & _). destruct (entry_ok _ _ _ I He) as [Hok Hk]. rewrite <- Hk. apply (pk_in_ok _ _ Hok r Hr).
  Qed.
  Lemma sees_of F s : Inv s -> fw_faces s = F -> sees F s.
  Proof. intros I <-. by apply inv_sees. Qed.
  Lemma run_io (R : fw -> Prop) (K : fw -> act -> Prop) trig k p s s' u : Inv s -> (forall i, trig = Some i -> (0 <= i_lifetime i)%Z /\ key_of i = k) ->
    (forall s', Inv s' -> fw_faces s' = fw_faces s -> R s') -> (forall s, K s AOther) -> obeys R K s p -> run rand face_order trig k p s = Some (s', u) ->
    Inv s' /\ same_core s s' /\ thin s s' /\ exists l, added s s' l /\ forall x, x ∈ l -> sio no_fresh K k s s' x.
  Proof.
    intros I Ht HR HK Ho H.
    set (Q := fun lr => Inv lr /\ thin s lr).
    assert (Hr : rtc (allowed Q K trig k) s s').
    { eapply (run_obeys _ _ (wo_order _ _ _ W) R K trig k Q); [..|exact Ho|exact H]; try done.
      - intros s0 a s1 [I0 T0] Ha. split; [by eapply satom_inv|]. eapply thin_trans; [exact T0|by eapply satom_thin].
      - intros s0 [I0 T0]. by apply HR, T0.
      - intros i Hi. by apply Ht.
      - split; [done|apply thin_refl].
      - split; [done|apply thin_refl]. }
    split; [by eapply satoms_inv|]. split; [by eapply satoms_core|]. eapply satoms_io; [done| | |exact Hr].
    - intros i Hi. by apply Ht.
    - intros lr [Il Tl]. split; [apply Tl|]. intros f r Hf. by eapply thin_in.
  Qed.

  (** contracts of the triggers of all strategies *)
  Variable KI : gmap N face -> interest -> N -> pit_key -> fw -> act -> Prop.
  Variable KD : gmap N face -> data -> N -> pit_key -> fw -> act -> Prop.
  Variable KO : gmap N face -> pit_key -> fw -> act -> Prop.
  Hypothesis KI_other : forall F i f k s, KI F i f k s AOther.
  Hypothesis KD_other : forall F d f k s, KD F d f k s AOther.
  Hypothesis KO_other : forall F k s, KO F k s AOther.
  Notation keeps F K s p := (fw_faces s = F -> obeys (sees F) K s p).
  Hypothesis HI : forall inst F i f k s, keeps F (KI F i f k) s (st_interest (strategies inst) i f k).
  Hypothesis HB : forall inst F d f k s, keeps F (KD F d f k) s (st_before (strategies inst) d f k).
  Hypothesis HD : forall inst p F d f k s, st_data (strategies inst) = Some p -> keeps F (KD F d f k) s (p d f k).
  Hypothesis KD_data : forall F d f k s, KD F d f k s (AData d f).
  Hypothesis HN : forall inst F i r f k s, keeps F (KO F k) s (st_nack (strategies inst) i r f k).
  Hypothesis HH : forall inst F nh k s, keeps F (KO F k) s (st_newhop (strategies inst) nh k).
  Hypothesis HA : forall inst F arg k s, keeps F (KO F k) s (st_async (strategies inst) arg k).

  Inductive ev_io (s s' : fw) : event -> io -> Prop :=
  | ei_rx_i f i : ev_io s s' (EvInterest f i) (Rx_interest f i)
  | ei_rx_d f d : ev_io s s' (EvData f d) (Rx_data f d)
  | ei_rx_n f i r : ev_io s s' (EvNack f i r) (Rx_nack f i r)
  | ei_loop f i j : one_hop i j -> p2p_face s f -> ev_io s s' (EvInterest f i) (Tx_nack f j NACK_DUPLICATE)
  | ei_hit f i j d fc : one_hop i j -> i_token j = i_token i -> satisfies (key_of i) d -> fw_faces s !! f = Some fc -> (is_localhost (d_name d) = true -> fc_local fc = true) -> in_gone s' (key_of i) f ->
      ev_io s s' (EvInterest f i) (Tx_data f d (i_token i))
  | ei_nexthop f i g j fc : i_nexthop i = Some g -> one_hop i j -> fw_faces s !! g = Some fc -> (hop_zero j -> fc_local fc = true) ->
      ev_io s s' (EvInterest f i) (Tx_interest g j)
  | ei_interest f i i3 x : one_hop i i3 -> i_token i3 = i_token i -> i_nexthop i = None -> sio (fun g j => g = f /\ j = i3) (KI (fw_faces s) i3 f (key_of i)) (key_of i) s s' x ->
      ev_io s s' (EvInterest f i) x
  | ei_data f d k x : matching s d k -> sio no_fresh (KD (fw_faces s) d f k) k s s' x -> ev_io s s' (EvData f d) x
  | ei_many f d g k e r fc : matching s d k -> pit_at (fw_t s) k = Some e -> r ∈ pe_in e -> fr_face (ir_rec r) = g -> (now (fw_t s) < fr_expiry (ir_rec r))%Z ->
      fw_faces s !! g = Some fc -> (is_localhost (d_name d) = true -> fc_local fc = true) -> (g = f -> fc_link fc = LINK_AD_HOC) -> in_gone s' k g ->
      ev_io s s' (EvData f d) (Tx_data g d None)
  | ei_nack f i r k x : sio no_fresh (KO (fw_faces s) k) k s s' x -> ev_io s s' (EvNack f i r) x
  | ei_async inst arg k x : sio no_fresh (KO (fw_faces s) k) k s s' x -> ev_io s s' (EvAsync inst arg k) x
  | ei_newhop p f c k x : sio no_fresh (KO (fw_faces s) k) k s s' x -> ev_io s s' (EvFibAdd p f c) x.

  Lemma loop_io f i j s s1 : fw_faces s1 = fw_faces s -> one_hop i j -> exists l, added s1 (loop_out strategies j f s1) l /\ forall x s', x ∈ l -> ev_io s s' (EvInterest f i) x.
  Proof.
    intros Hf Hj. unfold loop_out, loop_nacks. rewrite Hf. destruct (fw_faces s !! f) as [fc|] eqn:E; [|exists []; split; [done|]; intros x s' Hx; by apply elem_of_nil in Hx].
    destruct (is_p2p fc) eqn:Ep; simpl; [|exists []; split; [done|]; intros x s' Hx; by apply elem_of_nil in Hx].
    destruct (match effective _ _ with Some _ => _ | None => _ end); [|exists []; split; [done|]; intros x s' Hx; by apply elem_of_nil in Hx].
    exists [Tx_nack f j NACK_DUPLICATE]. split; [done|]. intros x s' ->%elem_of_list_singleton. apply ei_loop; [done|]. exists fc. split; [done|]. unfold is_p2p in Ep. by destruct (fc_link fc).
  Qed.
  Lemma token_kept s i : i_token (with_default_hop s (strip_hint (fw_regions s) (dec_hop i))) = i_token i.
  Proof.
    unfold with_default_hop, strip_hint, dec_hop. destruct (i_hop i); simpl; (destruct (i_hint i); simpl; [|destruct (in_producer_region _ _)]); by destruct (add_hop _ _).
  Qed.
  Lemma i2_kept r i : i_token (strip_hint r (dec_hop i)) = i_token i /\ i_nexthop (strip_hint r (dec_hop i)) = i_nexthop i /\ i_nonce (strip_hint r (dec_hop i)) = i_nonce i /\ i_lifetime (strip_hint r (dec_hop i)) = i_lifetime i.
  Proof. unfold strip_hint, dec_hop. destruct (i_hop i); simpl; (destruct (i_hint i); simpl; [|destruct (in_producer_region _ _)]); done. Qed.
  Lemma i3_kept s i : i_token (with_default_hop s i) = i_token i /\ i_nexthop (with_default_hop s i) = i_nexthop i /\ i_nonce (with_default_hop s i) = i_nonce i /\ i_lifetime (with_default_hop s i) = i_lifetime i /\
    key_of (with_default_hop s i) = key_of i.
  Proof. unfold with_default_hop. by destruct (add_hop _ _). Qed.

  Lemma interest_io s f i s' : Inv s -> ev_ok s (EvInterest f i) -> event_fn (EvInterest f i) s = Some (s', tt) ->
    exists l, added s s' l /\ forall x, x ∈ l -> ev_io s s' (EvInterest f i) x.
  Proof.
    intros I Ho He. pose proof Ho as (_ & Hlife & _). eapply interest_cases in He as (fc & Hf & Hc); [|done|done].
    assert (Hrx : forall s1 l, fw_log s1 = Rx_interest f i :: fw_log s -> added s1 s' l -> (forall x, x ∈ l -> ev_io s s' (EvInterest f i) x) ->
      exists l, added s s' l /\ forall x, x ∈ l -> ev_io s s' (EvInterest f i) x).
    { unfold added. intros s1 l H1 H2 H3. exists (l ++ [Rx_interest f i]). split; [by rewrite H2, H1, <- app_assoc|].
      intros x [Hx|Hx]%elem_of_app; [by apply H3|]. apply elem_of_list_singleton in Hx as ->. constructor. }
    assert (Hnil : fw_log s' = Rx_interest f i :: fw_log s -> exists l, added s s' l /\ forall x, x ∈ l -> ev_io s s' (EvInterest f i) x).
    { intros Hl. apply (Hrx s' []); [done|done|]. intros x Hx. by apply elem_of_nil in Hx. }
    destruct Hc as [_ ->|_ _ _ ->|Hz _ Hp']; [by apply Hnil|by apply Hnil|].
    pose proof (one_hop_dec i Hz) as Hd. set (s0 := got (Rx_interest f i) inc_in_interests s) in *.
    destruct Hp' as [_ ->|i2 e new s1 _ Hi2 Hins Hp'].
    { destruct (loop_io f i _ s s0 eq_refl Hd) as (l & Hl & Hx). eapply Hrx; [|exact Hl|]; [done|]. intros x. apply Hx. }
    assert (Hd2 : one_hop i i2) by (subst i2; by apply one_hop_strip). assert (Hk2 : key_of i2 = key_of i) by apply Hd2.
    destruct (i2_kept (fw_regions s) i) as (Ht2 & Hnh2 & Hno2 & Hl2). rewrite <- Hi2 in Ht2, Hnh2, Hno2, Hl2.
    assert (Hf1 : fw_faces s1 = fw_faces s) by (by rewrite (sc_faces _ _ (ins_core _ _ _ _ _ Hins))).
    assert (Hlog1 : fw_log s1 = Rx_interest f i :: fw_log s) by (by rewrite (ins_log _ _ _ _ _ Hins)).
    destruct Hp' as [Hdup ->|c d _ Hin Hcs I2 Hhit|s2 e3 s3 _ Hncs I2 Hm Hfw].
    - destruct (loop_io f i i2 s s1 Hf1 Hd2) as (l & Hl & Hx). eapply Hrx; [|exact Hl|]; [done|]. intros x. apply Hx.
    - destruct Hhit as [(sc & Hw & Hs') Hmatch]. assert (Hlc : fw_log sc = Rx_interest f i :: fw_log s) by (by rewrite (wr_log _ _ _ _ _ Hw)).
      destruct (fc_local fc || negb (is_localhost (d_name d))) eqn:El; [|subst s'; by apply Hnil].
      apply (Hrx sc [Tx_data f d (i_token i2)]); [done|by subst s'|]. intros x ->%elem_of_list_singleton. rewrite Ht2. apply (ei_hit _ _ f i i2 d fc); [done|done| |exact Hf| |].
      + rewrite <- Hk2. eapply satisfies_key; [|exact Hmatch]. apply Hins.
      + intros Hh. rewrite Hh in El. by destruct (fc_local fc).
      + intros e0. subst s'. simpl. destruct (wr_entry _ _ _ _ _ Hw) as [_ E2]. rewrite E2, Hk2, decide_True by done. intros [= <-]. simpl. by rewrite Hin.
    - set (i3 := with_default_hop s2 i2) in *. destruct (i3_kept s2 i2) as (Ht3 & Hnh3 & Hno3 & Hl3 & Hk3). fold i3 in Ht3, Hnh3, Hno3, Hl3, Hk3.
      assert (Hd3 : one_hop i i3) by (by apply one_hop_default).
      assert (Ht : fw_t s2 = fw_t s1 /\ fw_faces s2 = fw_faces s1 /\ fw_log s2 = fw_log s1) by (by destruct Hncs as [[_ ->]|(_ & c & _ & ->)]). destruct Ht as (Ht & Htf & Htl).
      pose proof (ms_wrote _ _ _ _ _ _ _ _ _ Hm) as Hw. assert (I3 := wr_inv _ _ _ _ _ Hw).
      assert (Hf3 : fw_faces s3 = fw_faces s) by (rewrite (sc_faces _ _ (wr_core _ _ _ _ _ Hw)); simpl; congruence).
      assert (Hlog3 : fw_log s3 = Rx_interest f i :: fw_log s) by (rewrite (wr_log _ _ _ _ _ Hw); simpl; congruence).
      unfold forwards in Hfw. destruct (i_nexthop i3) as [g|] eqn:Enh.
      + case_decide as Hex; [|subst s'; apply (Hrx s3 []); [done|done|]; intros x Hx; by apply elem_of_nil in Hx].
        destruct Hfw as [b Hout]. unfold on_outgoing_interest in Hout. apply bind_Some in Hout as (s4 & gc & [-> Hgc]%face_of_Some & Hout).
        destruct (match i_hop i3 with Some h => (h =? 0)%N | None => false end && negb (fc_local gc)) eqn:Eh.
        { apply bind_Some in Hout as (s4 & v & [= <- <-] & [= <- <-]). apply (Hrx s3 []); [done|done|]. intros x Hx. by apply elem_of_nil in Hx. }
        apply bind_Some in Hout as (s4 & v & [= <- <-] & Hout). apply bind_Some in Hout as (s4 & v & Hup & Hout). apply upd_entry_Some in Hup as (e4 & He4 & ->).
        apply bind_Some in Hout as (s4 & v4 & [= <- <-] & Hout). apply bind_Some in Hout as (s4 & v4 & [= <- <-] & [= <- <-]).
        apply (Hrx s3 [Tx_interest g i3]); [done|done|]. intros x ->%elem_of_list_singleton. rewrite Hf3 in Hgc. eapply ei_nexthop; [by rewrite <- Hnh2, <- Hnh3|done|exact Hgc|].
        intros Hz3. apply hop_zero_dec in Hz3. rewrite Hz3 in Eh. by destruct (fc_local gc).
      + destruct Hfw as (p & inst & _ & Hr).
        eapply (run_io (sees (fw_faces s)) (KI (fw_faces s) i3 f (key_of i))) in Hr as (I4 & C4 & T4 & l & Hl & Hx);
          [|exact I3| |intros s4 I4; rewrite Hf3; by apply sees_of|intros s4; apply KI_other|rewrite Hk2; by apply HI].
        2: { intros j [= <-]. split; [by rewrite Hl3, Hl2|by rewrite Hk3]. }
        apply (Hrx s3 l); [done|done|]. intros x Hxl. apply (ei_interest _ _ f i i3); [done|congruence|congruence|].
        rewrite <- Hk2 in Hx |- *. rewrite Hk2 in Hx. rewrite <- Hk2 in Hx. eapply sio_mono; [exact Hf3| |apply thin_refl|by apply Hx].
        intros f0 r (e0 & He0 & Hr0 & Hfr). destruct (wr_entry _ _ _ _ _ Hw) as [E1 E2]. rewrite E2, decide_True in He0 by done. injection He0 as <-.
        rewrite (ms_in _ _ _ _ _ _ _ _ _ Hm) in Hr0. apply insert_in_elem in Hr0 as [Hr0|[Hr0 Hri]].
        * right. exists r. split; [|done]. rewrite (ins_e _ _ _ _ _ Hins) in Hr0. fold s0 in Hr0. change (fw_t s0) with (fw_t s) in Hr0.
          destruct (pit_at (fw_t s) (key_of i2)) as [e1|] eqn:E3; simpl in Hr0; [by exists e1|by apply elem_of_nil in Hr0].
        * left. split; [congruence|done].
  Qed.

  Lemma finished_thin d f k clear s s' : finished make_entry rand d f k clear s s' -> thin s s'.
  Proof.
    intros Hf. apply finished_spec in Hf as (_ & Hc & _ & _ & _ & _ & Hk & e & He & He'). split; [apply Hc|]. split; [apply Hc|]. intros k0 e0 He0. destruct (decide (k0 = k)) as [->|Hne].
    - rewrite He' in He0. injection He0 as <-. exists e. split; [done|]. destruct clear; simpl; (split; [done|]); [done|]. intros g r Hr. by exists r.
    - rewrite Hk in He0 by done. exists e0. split; [done|]. split; [done|]. intros g r Hr. by exists r.
  Qed.
  Lemma inserted_data_thin d u s s' : inserted_data d u s s' -> thin s s' /\ fw_log s' = fw_log s /\ Inv s'.
  Proof. intros (c & _ & -> & I). split; [by apply thin_same|done]. Qed.
  Lemma sat_loop_io d f ks s s' : Inv s -> sat_loop make_entry rand face_order strategies d f ks s s' ->
    thin s s' /\ exists l, added s s' l /\ forall x, x ∈ l -> exists k, k ∈ ks /\ sio no_fresh (KD (fw_faces s) d f k) k s s' x.
  Proof.
    intros I H. induction H as [|k ks e p inst s s1 s2 s3 s4 W1 He Hr Hf Hs IH].
    { split; [apply thin_refl|]. exists []. split; [done|]. intros x Hx. by apply elem_of_nil in Hx. }
    assert (I1 := wr_inv _ _ _ _ _ W1). assert (T1 : thin s s1) by (by eapply wrote_thin_in).
    eapply (run_io (sees (fw_faces s1)) (KD (fw_faces s1) d f k)) in Hr as (I2 & C2 & T2 & l & Hl & Hx); [|done|done|intros; by apply sees_of|done|by apply HB].
    pose proof (finished_thin _ _ _ _ _ _ Hf) as T3. pose proof (finished_spec _ _ _ _ _ _ _ _ Hf) as (I3 & _ & Hl3 & _).
    destruct (IH I3) as (T4 & l' & Hl' & Hx'). assert (Ta : thin s s3) by (eapply thin_trans; [exact T1|eapply thin_trans; [exact T2|exact T3]]).
    split; [by eapply thin_trans|]. exists (l' ++ l). unfold added in *. split; [by rewrite Hl', Hl3, Hl, (wr_log _ _ _ _ _ W1), app_assoc|].
    intros x [Hxx|Hxx]%elem_of_app.
    - destruct (Hx' x Hxx) as (k' & Hk' & Hsio). exists k'. split; [by right|]. rewrite (proj1 Ta) in Hsio. eapply sio_thin; [exact I|exact I3|exact Ta|apply thin_refl|done].
    - exists k. split; [by left|]. specialize (Hx x Hxx). rewrite (proj1 T1) in Hx. eapply sio_thin; [exact I|exact I1|exact T1| |exact Hx]. by eapply thin_trans.
  Qed.
  Lemma each_out_io d l s s' : each l (fun g => bind (on_outgoing_data d None g) (fun _ => ret tt)) s = Some (s', tt) ->
    thin s s' /\ exists l', added s s' l' /\ forall x, x ∈ l' -> exists g fc, g ∈ l /\ fw_faces s !! g = Some fc /\ (is_localhost (d_name d) = true -> fc_local fc = true) /\ x = Tx_data g d None.
  Proof.
    revert s. induction l as [|g l IH]; intros s Hr; simpl in Hr.
    { injection Hr as <-. split; [apply thin_refl|]. exists []. split; [done|]. intros x Hx. by apply elem_of_nil in Hx. }
    apply bind_Some in Hr as (s1 & [] & H1 & Hr). destruct (IH s1 Hr) as (T & l' & Hl & Hx). apply out_data_one in H1 as [->|(fc & Hfc & Hlo & ->)].
    - split; [done|]. exists l'. split; [done|]. intros x (g' & fc & ? & ?)%Hx. exists g', fc. split; [by right|done].
    - split; [eapply thin_trans; [|exact T]; by apply thin_same|]. exists (l' ++ [Tx_data g d None]). unfold added in *. split; [by rewrite Hl, <- app_assoc|].
      intros x [(g' & fc' & ? & ?)%Hx|Hxx]%elem_of_app; [exists g', fc'; split; [by right|done]|]. apply elem_of_list_singleton in Hxx as ->. exists g, fc. split; [by left|done].
  Qed.

  Lemma received_io d f k s s' : Inv s -> received rand face_order strategies d f k s s' ->
    Inv s' /\ same_core s s' /\ thin s s' /\ exists l, added s s' l /\ forall x, x ∈ l -> sio no_fresh (KD (fw_faces s) d f k) k s s' x.
  Proof.
    intros I (p & inst & _ & H). unfold after_receive_data in H. destruct (st_data (strategies inst)) as [q|] eqn:Eq.
    - eapply (run_io (sees (fw_faces s)) (KD (fw_faces s) d f k)) in H; [done|done|done|intros; by apply sees_of|done|by eapply HD].
    - apply bind_Some in H as (s1 & v & H1 & H).
      eapply (run_io (sees (fw_faces s)) (KD (fw_faces s) d f k)) in H1 as (I1 & C1 & T1 & l1 & Hl1 & Hx1); [|done|done|intros; by apply sees_of|done|by apply HB].
      apply (a_data_all _ (wo_order _ _ _ W) None) in H as (e & He & Hr & _ & _ & _); [|done].
      assert (Hr' : rtc (allowed (fun lr => lr = s1) (fun _ a => a = AData d f) None k) s1 s').
      { eapply rtc_subrel; [|exact Hr]. intros a b Hab. exists (AData d f). split; [done|]. by exists s1. }
      pose proof (satoms_inv _ _ _ _ _ _ I1 Hr') as I2. pose proof (satoms_core _ _ _ _ _ _ Hr') as C2.
      eapply satoms_io in Hr' as (T2 & l2 & Hl2 & Hx2); [|done|done|].
      2: { intros lr ->. split; [done|]. intros f0 r0 Hr0. right. by exists r0. }
      split; [done|]. split; [by eapply same_core_trans|]. split; [by eapply thin_trans|]. exists (l2 ++ l1). unfold added in *. split; [by rewrite Hl2, Hl1, app_assoc|].
      intros x [Hx|Hx]%elem_of_app.
      + eapply sio_thin; [exact I|exact I1|exact T1|apply thin_refl|]. specialize (Hx2 x Hx).
        destruct Hx2 as [g j fc lr src nonce nd L HK|g d' fc f0 lr j L HK Hg Hl Hb Hi Hs Hgone|g j reason fc lr L HK]; try done. injection HK as -> ->.
        eapply si_data; [exact L|apply KD_data|done..].
      + eapply sio_thin; [exact I|exact I|apply thin_refl|exact T2|by apply Hx1].
  Qed.

  Lemma data_io s f d s' : Inv s -> ev_ok s (EvData f d) -> event_fn (EvData f d) s = Some (s', tt) ->
    exists l, added s s' l /\ forall x, x ∈ l -> ev_io s s' (EvData f d) x.
  Proof.
    intros I Ho He. eapply data_cases in He as (fc & Hf & Hc); [|exact W|done|done]. set (s0 := got (Rx_data f d) inc_in_data s) in *.
    assert (Hrx : forall s1 l, fw_log s1 = Rx_data f d :: fw_log s -> added s1 s' l -> (forall x, x ∈ l -> ev_io s s' (EvData f d) x) ->
      exists l, added s s' l /\ forall x, x ∈ l -> ev_io s s' (EvData f d) x).
    { unfold added. intros s1 l H1 H2 H3. exists (l ++ [Rx_data f d]). split; [by rewrite H2, H1, <- app_assoc|].
      intros x [Hx|Hx]%elem_of_app; [by apply H3|]. apply elem_of_list_singleton in Hx as ->. constructor. }
    assert (Hnil : fw_log s' = Rx_data f d :: fw_log s -> exists l, added s s' l /\ forall x, x ∈ l -> ev_io s s' (EvData f d) x).
    { intros Hl. apply (Hrx s' []); [done|done|]. intros x Hx. by apply elem_of_nil in Hx. }
    assert (T0 : thin s s0) by (by apply thin_same). assert (I0 : Inv s0) by (by apply Inv_got).
    destruct Hc as [_ _ ->|_ _ Hu|k e s1 s2 s3 _ He Hm Hi W2 Hr Hfi|ks s1 s2 pend _ Hn _ Hks Hi Hl Hpn Hpe Hs]; [by apply Hnil|..].
    - cbv zeta in Hu. apply Hnil. destruct (unsol_decide _ _); [|by subst]. destruct Hu as (c & _ & -> & _). done.
    - apply inserted_data_thin in Hi as (T1 & Hl1 & I1). assert (I2 := wr_inv _ _ _ _ _ W2). assert (T2 : thin s1 s2) by (by eapply wrote_thin_in).
      destruct (received_io _ _ _ _ _ I2 Hr) as (I3 & _ & T3 & l & Hl & Hx). pose proof (finished_thin _ _ _ _ _ _ Hfi) as T4.
      pose proof (finished_spec _ _ _ _ _ _ _ _ Hfi) as (_ & _ & Hl4 & _). assert (Ta : thin s s2) by (eapply thin_trans; [exact T0|eapply thin_trans; [exact T1|exact T2]]).
      apply (Hrx s2 l); [by rewrite (wr_log _ _ _ _ _ W2), Hl1|unfold added in *; by rewrite Hl4|]. intros x Hxx. apply (ei_data _ _ f d k); [by apply Hm|].
      specialize (Hx x Hxx). rewrite (proj1 Ta) in Hx. eapply sio_thin; [exact I|exact I2|exact Ta|exact T4|exact Hx].
    - apply inserted_data_thin in Hi as (T1 & Hl1 & I1). destruct (sat_loop_io _ _ _ _ _ I1 Hl) as (T2 & l & Hl2 & Hx).
      pose proof (sat_loop_spec _ _ _ _ _ _ W _ _ _ _ _ I1 Hn Hl) as (I2 & _ & _ & _ & L1 & L2).
      destruct (each_out_io _ _ _ _ Hs) as (T3 & l' & Hl' & Hx'). assert (Ta : thin s s1) by (by eapply thin_trans).
      apply (Hrx s1 (l' ++ l)); [by rewrite Hl1|unfold added in *; by rewrite Hl', Hl2, app_assoc|]. intros x [Hxx|Hxx]%elem_of_app.
      + destruct (Hx' x Hxx) as (g & gc & Hg & Hgc & Hlo & ->). rewrite (proj1 T2), (proj1 Ta) in Hgc.
        rewrite elem_of_list_In, filter_In, <- elem_of_list_In in Hg. destruct Hg as [Hg Hb]. rewrite (wo_order _ _ _ W) in Hg.
        apply Hpe in Hg as (k & e & Hk & He & (r & Hr & Hrf & Hre)%pending_elem).
        eapply (ei_many _ _ f d g k e r gc); [by apply Hks|done|done|done|done|done|done| |].
        * intros ->. unfold not_back in Hb. rewrite N.eqb_refl, (proj1 T2), (proj1 Ta), Hgc in Hb. simpl in Hb. unfold is_adhoc in Hb. by destruct (fc_link gc).
        * eapply thin_gone; [exact T3|]. intros e0 He0. destruct (L2 k Hk) as (e1 & e2 & _ & E2 & _ & Hemp & _). rewrite He0 in E2. injection E2 as <-. by rewrite Hemp.
      + destruct (Hx x Hxx) as (k & Hk & Hsio). apply (ei_data _ _ f d k); [by apply Hks|]. rewrite (proj1 Ta) in Hsio. eapply sio_thin; [exact I|exact I1|exact Ta|exact T3|exact Hsio].
  Qed.

  Lemma nack_io s f i r s' : Inv s -> event_fn (EvNack f i r) s = Some (s', tt) -> exists l, added s s' l /\ forall x, x ∈ l -> ev_io s s' (EvNack f i r) x.
  Proof.
    intros I He. eapply nack_cases in He as (fc & Hf & Hc); [|done]. set (s0 := got (Rx_nack f i r) inc_in_nacks s) in *.
    destruct Hc as [_ ->|e rec s1 s2 p inst _ He _ _ W1 H2 _ Hr].
    { exists [Rx_nack f i r]. split; [done|]. intros x ->%elem_of_list_singleton. constructor. }
    assert (I1 := wr_inv _ _ _ _ _ W1). assert (T1 : thin s s1) by (eapply (thin_trans s s0); [by apply thin_same|by eapply wrote_thin_in]).
    assert (H12 : Inv s2 /\ thin s1 s2 /\ fw_log s2 = fw_log s1).
    { destruct (has_pending_out _ _); [subst; split; [done|]; split; [apply thin_refl|done]|]. split; [apply H2|]. split; [by eapply wrote_thin_in|apply H2]. }
    destruct H12 as (I2 & T2 & Hl2). assert (Ta : thin s s2) by (by eapply thin_trans).
    eapply (run_io (sees (fw_faces s2)) (KO (fw_faces s2) (key_of i))) in Hr as (I4 & _ & T4 & l & Hl & Hx); [|done|done|intros; by apply sees_of|done|by apply HN].
    exists (l ++ [Rx_nack f i r]). unfold added in *. split; [by rewrite Hl, Hl2, (wr_log _ _ _ _ _ W1), <- app_assoc|].
    intros x [Hxx|Hxx]%elem_of_app; [|apply elem_of_list_singleton in Hxx as ->; constructor]. apply (ei_nack _ _ f i r (key_of i)).
    specialize (Hx x Hxx). rewrite (proj1 Ta) in Hx. eapply sio_thin; [exact I|exact I2|exact Ta|apply thin_refl|exact Hx].
  Qed.

  Lemma new_hop_io p nh s s' u : Inv s -> on_new_next_hop rand face_order strategies p nh s = Some (s', u) ->
    Inv s' /\ thin s s' /\ exists l, added s s' l /\ forall x, x ∈ l -> exists k, sio no_fresh (KO (fw_faces s) k) k s s' x.
  Proof.
    intros I H. unfold on_new_next_hop in H. apply bind_Some in H as (s0 & s1 & [= <- <-] & H).
    set (l := affected p (fw_t s)) in H. clearbody l. revert s I H. induction l as [|k l IH]; intros s I H; simpl in H.
    { injection H as <- <-. split; [done|]. split; [apply thin_refl|]. exists []. split; [done|]. intros x Hx. by apply elem_of_nil in Hx. }
    apply bind_Some in H as (s1 & v & H1 & H). apply bind_Some in H1 as (s2 & st & Hst & H1). unfold strategy_for in Hst.
    destruct (effective (pk_name k) (fw_t s)) as [[q inst]|]; [|done]. injection Hst as <- <-.
    eapply (run_io (sees (fw_faces s)) (KO (fw_faces s) k)) in H1 as (I1 & _ & T1 & l1 & Hl1 & Hx1); [|done|done|intros; by apply sees_of|done|by apply HH].
    destruct (IH s1 I1 H) as (I2 & T2 & l2 & Hl2 & Hx2). split; [done|]. split; [by eapply thin_trans|]. exists (l2 ++ l1). unfold added in *. split; [by rewrite Hl2, Hl1, app_assoc|].
    intros x [Hx|Hx]%elem_of_app.
    - destruct (Hx2 x Hx) as (k' & Hk'). exists k'. rewrite (proj1 T1) in Hk'. eapply sio_thin; [exact I|exact I1|exact T1|apply thin_refl|done].
    - exists k. eapply sio_thin; [exact I|exact I|apply thin_refl|exact T2|by apply Hx1].
  Qed.
  Lemma fib_add_io p f c s s' : Inv s -> event_fn (EvFibAdd p f c) s = Some (s', tt) ->
    exists l, added s s' l /\ forall x, x ∈ l -> ev_io s s' (EvFibAdd p f c) x.
  Proof.
    intros I H.
    assert (Hnil : fw_log s' = fw_log s -> exists l, added s s' l /\ forall x, x ∈ l -> ev_io s s' (EvFibAdd p f c) x).
    { intros Hl. exists []. split; [done|]. intros x Hx. by apply elem_of_nil in Hx. }
    simpl in H. eapply (fib_add_case _ same_type _ _ _ W) in H as [->|(_ & _ & T & l & E & Ho & _ & _ & Hn & _)]; [by apply Hnil| |done]. pose proof (only_fib_frame _ _ _ _ Ho) as (_ & _ & _ & _ & Hnow).
    destruct Hn as [->|(q & nh & Hn)]; [by apply Hnil|]. assert (T0 : thin s (set_t T s)) by (by apply env_thin).
    apply new_hop_io in Hn as (I1 & T1 & l' & Hl & Hx); [|apply E]. exists l'. split; [done|]. intros x (k & Hk)%Hx. apply (ei_newhop _ _ p f c k).
    eapply sio_thin; [exact I|exact (en_inv _ _ E)|exact T0|apply thin_refl|exact Hk].
  Qed.

  Theorem event_io s ev s' : Inv s -> ev_ok s ev -> event_fn ev s = Some (s', tt) -> exists l, added s s' l /\ forall x, x ∈ l -> ev_io s s' ev x.
  Proof.
    intros I Ho H.
    assert (Hnil : fw_log s' = fw_log s -> exists l, added s s' l /\ forall x, x ∈ l -> ev_io s s' ev x).
    { intros Hl. exists []. split; [done|]. intros x Hx. by apply elem_of_nil in Hx. }
    destruct ev as [f i|f d|f i r|k|inst arg k|p f c|p f|p req|p|fc|fc id|f|l|p|h|o| | |d].
    - by apply interest_io.
    - by apply data_io.
    - by apply nack_io.
    - simpl in H. apply timer_case in H as (e & Hz); [|done]. apply Hnil, Hz.
    - simpl in H. eapply (run_io (sees (fw_faces s)) (KO (fw_faces s) k)) in H as (I1 & _ & T1 & l & Hl & Hx); [|done|done|intros; by apply sees_of|done|by apply HA].
      exists l. split; [done|]. intros x Hxx. apply (ei_async _ _ inst arg k). by apply Hx.
    - by apply fib_add_io.
    - eapply still_cases in H; [|done..]. apply Hnil, H.
    - eapply still_cases in H; [|done..]. apply Hnil, H.
    - eapply still_cases in H; [|done..]. apply Hnil, H.
    - eapply still_cases in H; [|done..]. apply Hnil, H.
    - eapply still_cases in H; [|done..]. apply Hnil, H.
    - simpl in H. eapply face_remove_case in H as [H _]; [|done..]. destruct (uf_eq _ _ _ H) as [T ->]. by apply Hnil.
    - eapply still_cases in H; [|done..]. apply Hnil, H.
    - eapply still_cases in H; [|done..]. apply Hnil, H.
    - eapply still_cases in H; [|done..]. apply Hnil, H.
    - eapply still_cases in H; [|done..]. apply Hnil, H.
    - eapply still_cases in H; [|done..]. apply Hnil, H.
    - eapply still_cases in H; [|done..]. apply Hnil, H.
    - eapply still_cases in H; [|done..]. apply Hnil, H.
  Qed.
End step.
