(** Sending and receiving on a transport that does not reconnect. *)
From Verif Require Import Lib Lp_Model Tp_Model Tp_Spec Tp_Proof.

Definition sends (l : list handler) : list handler := List.filter is_send l.
Lemma sends_app a b : sends (a ++ b) = sends a ++ sends b.
Proof. unfold sends. induction a as [|h a IH]; [done|]. simpl. destruct (is_send h); simpl; by rewrite IH. Qed.
Lemma sends_in h l : is_send h = true -> h ∈ l <-> h ∈ sends l.
Proof. intros Hh. unfold sends. rewrite !elem_of_list_In, filter_In. tauto. Qed.
Lemma total_app a b : total (a ++ b) = (total a + total b)%N.
Proof. unfold total. induction a as [|p a IH]; [done|]. simpl. rewrite IH. lia. Qed.

(** what was written: [s] the handlers of writes *)
Definition live (v : tstate) (w : list (list N * N)) (s : list handler) (q : list (list N)) (acc : list (list N)) (net : list N) : Prop :=
  exists done, acc = done ++ q /\
    ((w = [] /\ s = [] /\ q = [] /\ net = concat done) \/
     (exists h q' a b, q = h :: q' /\ h = a ++ b /\ b <> [] /\ w = [(b, len h)] /\ s = [] /\ net = concat done ++ a) \/
     (exists h q', q = h :: q' /\ w = [] /\ s = [HSend None (len h)] /\ net = concat done ++ h) \/
     (exists h q' a b, q = h :: q' /\ h = a ++ b /\ w = [] /\ net = concat done ++ a /\
        (s = [] /\ shutting v \/ exists e n, s = [HSend (Some e) n] /\ (v = TUp -> e <> EAborted /\ e <> EShut)))).
Definition gone (w : list (list N * N)) (s : list handler) (q : list (list N)) (acc : list (list N)) (net : list N) : Prop :=
  w = [] /\ q = [] /\ (forall n, HSend None n ∉ s) /\ net `prefix_of` concat acc.
Definition order (l : list handler) : Prop := forall l1 l2 n, l = l1 ++ HClose :: l2 -> HSend None n ∉ l2.

Definition is_data (h : handler) : bool := match h with HRecv None _ => true | _ => false end.
Definition datas (l : list handler) : list handler := List.filter is_data l.
Lemma datas_app a b : datas (a ++ b) = datas a ++ datas b.
Proof. unfold datas. induction a as [|h a IH]; [done|]. simpl. destruct (is_data h); simpl; by rewrite IH. Qed.

Record pl (x : xp) : Prop := {
  p_plain : x_tcp x && x_perm x = false;
  p_up : x_state x = TUp -> x_open x = true /\ x_shut x = false;
  p_down : x_state x <> TDown;
  p_c : x_c x = 0%nat;
  p_h : forall h, h ∈ x_ready x -> h <> HReconnect /\ forall r, h <> HConn r;
  p_bytes : x_qbytes x = total (x_sendq x);
  p_ne : forall p, p ∈ x_sendq x -> p <> [];
  p_open : x_open x = true -> live (x_state x) (x_w x) (sends (x_ready x)) (x_sendq x) (x_acc x) (x_net x);
  p_closed : x_open x = false -> x_state x = TClosed /\ gone (x_w x) (sends (x_ready x)) (x_sendq x) (x_acc x) (x_net x);
  p_order : order (x_ready x);
  p_recv : (x_r x + length (datas (x_ready x)) <= 1)%nat;
  p_fit : forall d, HRecv None d ∈ x_ready x -> d <> [] /\ (len (x_buf x) + len d <= MAX_PACKET)%N;
  p_buf : x_state x = TUp -> (len (x_buf x) < MAX_PACKET)%N;
}.

Lemma order_app a b : order a -> (forall n, HSend None n ∉ b) -> order (a ++ b).
Proof.
  intros Ha Hb l1 l2 n E Hn. apply app_eq_app in E as [l [[E1 E2]|[E1 E2]]].
  - destruct l as [|h l]; simpl in E2.
    + apply (Hb n). rewrite <- E2. by right.
    + injection E2 as <- ->. apply elem_of_app in Hn as [Hn|Hn]; [by eapply (Ha l1 l n)|by eapply Hb].
  - apply (Hb n). rewrite E2. apply elem_of_app. right. by right.
Qed.
Lemma order_tail h l : order (h :: l) -> order l.
Proof. intros H l1 l2 n -> Hn. by apply (H (h :: l1) l2 n). Qed.
Lemma order_none l : HClose ∉ l -> order l.
Proof. intros H l1 l2 n -> _. apply H. apply elem_of_app. right. left. Qed.

Definition aborts (x : xp) : list handler := map (fun w : list N * N => HSend (Some EAborted) 0) (x_w x) ++ replicate (x_r x) (HRecv (Some EAborted) []) ++ replicate (x_c x) (HConn (Some EAborted)).
Lemma aborts_none x n : HSend None n ∉ aborts x.
Proof. unfold aborts. rewrite !elem_of_app. intros [H|[H|H]]; [apply elem_of_list_fmap in H as (? & ? & _)|apply elem_of_replicate in H as [? _]..]; done. Qed.
Lemma aborts_data x : datas (aborts x) = [].
Proof.
  unfold aborts. rewrite !datas_app. assert (forall k, datas (replicate k (HRecv (Some EAborted) [])) = []) as -> by (induction k; done). assert (forall k, datas (replicate k (HConn (Some EAborted))) = []) as -> by (induction k; done).
  rewrite !app_nil_r. by induction (x_w x).
Qed.
Lemma aborts_data_in x d : HRecv None d ∉ aborts x.
Proof. unfold aborts. rewrite !elem_of_app. intros [H|[H|H]]; [apply elem_of_list_fmap in H as (? & ? & _)|apply elem_of_replicate in H as [? _]..]; done. Qed.
Lemma aborts_sends x : sends (aborts x) = map (fun w : list N * N => HSend (Some EAborted) 0) (x_w x).
Proof.
  unfold aborts. rewrite !sends_app. assert (forall k, sends (replicate k (HRecv (Some EAborted) [])) = []) as -> by (induction k; done). assert (forall k, sends (replicate k (HConn (Some EAborted))) = []) as -> by (induction k; done).
  rewrite !app_nil_r. induction (x_w x); [done|]. simpl. by f_equal.
Qed.
Lemma aborts_plain x h : x_c x = 0%nat -> h ∈ aborts x -> h <> HReconnect /\ forall r, h <> HConn r.
Proof. intros Hc. unfold aborts. rewrite Hc, !elem_of_app. intros [H|[H|H]]; [apply elem_of_list_fmap in H as (? & -> & _)|apply elem_of_replicate in H as [-> _]|by apply elem_of_nil in H]; done. Qed.

Lemma live_shut v v' w s q acc net : shutting v' -> live v w s q acc net -> live v' w s q acc net.
Proof.
  intros Hv (dn & E & H). exists dn. split; [done|]. destruct H as [H|[H|[H|(h & q' & a & b & E1 & E2 & E3 & E4 & H)]]]; [by left|by right; left|by right; right; left|right; right; right].
  exists h, q', a, b. do 4 (split; [done|]). destruct H as [[-> _]|(e & n & -> & _)]; [by left|right]. exists e, n. split; [done|]. intros ->. by destruct Hv as [?|[?|?]].
Qed.
Lemma live_cancel v w s q acc net : shutting v -> live v w s q acc net -> live v [] (s ++ map (fun w : list N * N => HSend (Some EAborted) 0) w) q acc net.
Proof.
  intros Hv (dn & E & H). exists dn. split; [done|]. destruct H as [(-> & -> & H)|[(h & q' & a & b & -> & -> & Hb & -> & -> & ->)|[(h & q' & -> & -> & -> & ->)|(h & q' & a & b & E1 & E2 & -> & E4 & H)]]].
  - left. done.
  - right; right; right. exists (a ++ b), q', a, b. do 4 (split; [done|]). right. exists EAborted, 0%N. split; [done|]. intros ->. by destruct Hv as [?|[?|?]].
  - right; right; left. exists h, q'. done.
  - right; right; right. exists h, q', a, b. do 4 (split; [done|]). simpl. by rewrite app_nil_r.
Qed.
Lemma live_prefix v w s q acc net : live v w s q acc net -> net `prefix_of` concat acc.
Proof.
  intros (dn & -> & H). rewrite concat_app. destruct H as [(-> & -> & -> & ->)|[(h & q' & a & b & -> & -> & Hb & -> & -> & ->)|[(h & q' & -> & -> & -> & ->)|(h & q' & a & b & -> & -> & -> & -> & H)]]]; simpl.
  - by rewrite app_nil_r.
  - rewrite <- app_assoc. apply prefix_app. apply prefix_app_r. done.
  - apply prefix_app. by apply prefix_app_r.
  - rewrite <- app_assoc. apply prefix_app. by apply prefix_app_r.
Qed.

Record pc (x : xp) : Prop := {
  pc_plain : x_tcp x && x_perm x = false;
  pc_state : x_state x = TClosing \/ x_state x = TFailed;
  pc_c : x_c x = 0%nat;
  pc_h : forall h, h ∈ x_ready x -> h <> HReconnect /\ forall r, h <> HConn r;
  pc_bytes : x_qbytes x = total (x_sendq x);
  pc_ne : forall p, p ∈ x_sendq x -> p <> [];
  pc_open : x_open x = true;
  pc_live : live (x_state x) (x_w x) (sends (x_ready x)) (x_sendq x) (x_acc x) (x_net x);
  pc_order : order (x_ready x);
  pc_recv : (x_r x + length (datas (x_ready x)) <= 1)%nat;
  pc_fit : forall d, HRecv None d ∈ x_ready x -> d <> [] /\ (len (x_buf x) + len d <= MAX_PACKET)%N;
}.
Lemma pl_close y : pc y -> pl (do_close y).
Proof.
  intros P. pose proof (pc_state y P) as Hv. assert (Hs : shutting (x_state y)) by (unfold shutting; tauto). pose proof (pc_open y P) as Ho.
  assert (G : exists y', x_ready (do_close y) = x_ready y ++ aborts y ++ [HClose] /\ x_state (do_close y) = x_state y /\ x_tcp (do_close y) = x_tcp y /\ x_perm (do_close y) = x_perm y /\ x_open (do_close y) = true /\ x_c (do_close y) = 0%nat /\ x_w (do_close y) = [] /\ x_r (do_close y) = 0%nat /\ x_sendq (do_close y) = x_sendq y /\ x_qbytes (do_close y) = x_qbytes y /\ x_acc (do_close y) = x_acc y /\ x_net (do_close y) = x_net y /\ x_buf (do_close y) = x_buf y /\ y' = y).
  { exists y. unfold do_close. destruct (x_tcp y) eqn:Et; simpl; rewrite Ho; simpl; unfold aborts; rewrite <- !app_assoc, ?Et; repeat split; done. }
  destruct G as (_ & G1 & G2 & G3 & G4 & G5 & G6 & G7 & G8 & G9 & G10 & G11 & G12 & G13 & _). generalize dependent (do_close y). intros z G1 G2 G3 G4 G5 G6 G7 G8 G9 G10 G11 G12 G13.
  destruct P. constructor; rewrite ?G1, ?G2, ?G3, ?G4, ?G5, ?G6, ?G7, ?G8, ?G9, ?G10, ?G11, ?G12, ?G13; auto.
  - destruct Hv; congruence.
  - destruct Hv; congruence.
  - intros h. rewrite !elem_of_app. intros [?|[?|Hh%elem_of_list_singleton]]; [by apply pc_h0|exact (aborts_plain y h pc_c0 ltac:(done))|by subst].
  - intros _. rewrite !sends_app, aborts_sends. simpl. rewrite app_nil_r. by apply live_cancel.
  - done.
  - apply order_app; [done|]. intros n. rewrite elem_of_app. intros [H|H%elem_of_list_singleton]; [by apply aborts_none in H|done].
  - rewrite !datas_app, aborts_data. simpl. rewrite app_nil_r. lia.
  - intros d. rewrite !elem_of_app. intros [H|[H|H%elem_of_list_singleton]]; [by apply pc_fit0|by apply aborts_data_in in H|done].
  - destruct Hv; congruence.
Qed.
Lemma pl_do_close v x y : pl x -> v = TClosing \/ v = TFailed -> x_state x <> TClosed -> set_state v x = Some y -> pl (do_close y).
Proof.
  intros P Hv Hc E. apply pl_close. assert (Ev := proj2 (set_state_hop _ _ _ E)). assert (Hs : shutting (x_state y)) by (rewrite Ev; unfold shutting; tauto).
  assert (Ho : x_open x = true). { destruct (x_open x) eqn:Eo; [done|]. by destruct (p_closed x P Eo) as [? _]. }
  assert (L : live (x_state y) (x_w x) (sends (x_ready x)) (x_sendq x) (x_acc x) (x_net x)) by (eapply live_shut; [done|]; by apply P).
  destruct P. apply set_state_eq in E as [[-> _]|[-> _]]; constructor; auto; simpl in *; try (rewrite Ev); auto.
Qed.
Lemma pl_pop x h l : pl x -> x_ready x = h :: l -> is_send h = false -> pl (set_ready l x).
Proof.
  intros [] E Hh. rewrite E in *. constructor; simpl; auto.
  - intros h' Hh'. apply p_h0. by right.
  - unfold sends in *. simpl in p_open0. by rewrite Hh in p_open0.
  - unfold sends in *. simpl in p_closed0. by rewrite Hh in p_closed0.
  - by eapply order_tail.
  - unfold datas in *. simpl in p_recv0. destruct (is_data h); simpl in p_recv0; lia.
  - intros d Hd. apply p_fit0. by right.
Qed.
Lemma pl_error e x x' : pl x -> process_error e x = Some x' -> x' = x /\ (shutting (x_state x) \/ e = EAborted \/ e = EShut) \/ pl x'.
Proof.
  intros P.
  assert (H : x_state x = TUp -> handle_error e x = Some x' -> x' = x /\ (shutting (x_state x) \/ e = EAborted \/ e = EShut) \/ pl x').
  { intros Hs. right. unfold handle_error in *. rewrite (p_plain x P) in H. destruct (set_state _ x) as [y|] eqn:E; [|done]. injection H as <-. eapply pl_do_close; [exact P| | |exact E]; [destruct e; auto|congruence]. }
  unfold process_error, shutting. pose proof (p_down x P). destruct (x_state x), e; try done; auto; intros [= <-]; left; split; auto.
Qed.
Lemma pl_start x y x' : pl x -> x_state y = x_state x -> (x_state x = TUp -> pl (set_ops (x_w y) (S (x_r y)) (x_c y) y)) -> start_receive y = Some x' -> pl x'.
Proof. intros P E H. unfold start_receive. rewrite E. destruct (x_state x); [|done..]. intros [= <-]. by apply H. Qed.

Lemma step_pl x e x' : pl x -> cl x -> io_ok x e -> (x_tcp x = true -> e <> XPersistency true) -> x_step x e = Some x' -> pl x'.
Proof.
  intros P C Hok Hp H. destruct e as [p| |b| | |i k|i e|d|e|r]; simpl in H.
  - (* send *) simpl in Hok. unfold transport_send, do_send in H. destruct (x_state x) eqn:Es; try (by injection H as <-). destruct (p_up x P Es) as [Ho Hsh].
    destruct (p_open x P Ho) as (dn & Ea & HL). destruct (x_sendq x) as [|h q] eqn:Eq.
    + unfold send_from_queue in H. simpl in H. injection H as <-. destruct P. destruct HL as [(E1 & E2 & _ & E4)|[(? & ? & ? & ? & ? & _)|[(? & ? & ? & _)|(? & ? & ? & ? & ? & _)]]]; try done.
      constructor; simpl; auto.
      * rewrite p_bytes0, Eq. simpl. lia.
      * by intros ? ->%elem_of_list_singleton.
      * intros _. exists (x_acc x). split; [done|]. right; left. exists p, [], [], p. rewrite E1, E2, E4, Ea, app_nil_r, app_nil_r. done.
      * congruence.
    + injection H as <-. destruct P. constructor; simpl; auto.
      * rewrite p_bytes0, Eq. change (total (h :: q) + len p = total ((h :: q) ++ [p]))%N. rewrite total_app. simpl. lia.
      * intros p0. rewrite app_comm_cons, <- Eq. intros [?|Hp0%elem_of_list_singleton]%elem_of_app; [auto|by subst].
      * intros _. exists dn. split; [rewrite Ea; simpl; by rewrite <- app_assoc|]. rewrite Es in *. destruct HL as [(_ & _ & ? & _)|[(h' & q' & a & b & [= <- <-] & H2)|[(h' & q' & [= <- <-] & H2)|(h' & q' & a & b & [= <- <-] & H2)]]]; [done|right; left; by exists h, (q ++ [p]), a, b|right; right; left; by exists h, (q ++ [p])|right; right; right; by exists h, (q ++ [p]), a, b].
      * congruence.
  - unfold transport_close in H. destruct (x_state x) eqn:Es; try (by injection H as <-); (destruct (set_state _ x) as [y|] eqn:E; [|done]); injection H as <-; (eapply pl_do_close; [exact P|by left|congruence|exact E]).
  - assert (Pb : pl (set_xperm b x)). { destruct P. constructor; simpl; auto. destruct (x_tcp x); [|done]. destruct b; [by exfalso; apply Hp|done]. }
    unfold change_persistency in H. destruct (_ && _) eqn:Eb; [|by injection H as <-]. simpl in H. pose proof (p_down x P). destruct (x_state x); try done; by injection H as <-.
  - exfalso. simpl in Hok. destruct (c_timer x C Hok) as [? _]. by apply (p_down x P).
  - destruct (x_ready x) as [|h l] eqn:Er; [by injection H as <-|]. destruct h as [r n|r d| | |r].
    + destruct (x_open x) eqn:Eo.
      2: { destruct (p_closed x P Eo) as (Es & E1 & E2 & E3 & E4). destruct r as [e|].
        - simpl in H. unfold process_error in H. simpl in H. rewrite Es in H. injection H as <-. rewrite Er in E3. destruct P. rewrite Er in *. constructor; simpl; auto; try congruence.
          + intros h Hh. apply p_h0. by right.
          + intros _. split; [done|]. do 2 (split; [done|]). split; [|done]. intros n' Hn. apply (E3 n'). unfold sends. simpl. by right.
          + by eapply order_tail.
          + intros d Hd. apply p_fit0. by right.
        - exfalso. apply (E3 n). apply sends_in; [done|]. rewrite Er. left. }
      pose proof (p_open x P Eo) as (dn & Ea & HL). rewrite Er in HL. unfold sends in HL. simpl in HL. fold (sends l) in HL. destruct r as [e|].
      * assert (Pl : (shutting (x_state x) \/ (x_state x = TUp /\ e <> EAborted /\ e <> EShut)) /\ x_w x = [] /\ sends l = [] /\ exists h q' a b, x_sendq x = h :: q' /\ h = a ++ b /\ x_net x = concat dn ++ a).
        { destruct HL as [(_ & ? & _)|[(? & ? & ? & ? & _ & _ & _ & _ & ? & _)|[(? & ? & _ & _ & ? & _)|(h & q' & a & b & E1 & E2 & E3 & E4 & H')]]]; [done..|].
          destruct H' as [[? _]|(e' & n' & E5 & Hup)]; [done|]. injection E5 as <- <- E5. split; [|split; [done|]; split; [done|]; by exists h, q', a, b].
          unfold shutting. pose proof (p_down x P). destruct (x_state x); auto. done. }
        destruct Pl as (Hst & Ew & El & h & q' & a & b & Eq & Eh & En).
        assert (Hc : x_state x = TUp -> forall v y, v = TClosing \/ v = TFailed -> set_state v (set_ready l x) = Some y -> pl (do_close y)).
        { intros Es v y Hv E. apply pl_close. assert (Ev := proj2 (set_state_hop _ _ _ E)).
          assert (L : live v (x_w x) (sends l) (x_sendq x) (x_acc x) (x_net x)). { exists dn. split; [done|]. right; right; right. exists h, q', a, b. do 4 (split; [done|]). left. split; [done|]. unfold shutting. tauto. }
          assert (Ev' : y = set_xstate v (set_ready l x)). { apply set_state_eq in E as [[-> E]|[-> _]]; [|done]. exfalso. simpl in E. rewrite Es in E. destruct Hv; congruence. }
          subst y. destruct P. rewrite Er in *. constructor; simpl; auto.
          - intros h' Hh'. apply p_h0. by right.
          - by eapply order_tail.
          - intros d Hd. apply p_fit0. by right. }
        assert (Hid : shutting (x_state x) -> pl (set_ready l x)).
        { intros Hs. destruct P. rewrite Er in *. constructor; simpl; auto.
          - intros h' Hh'. apply p_h0. by right.
          - intros _. exists dn. split; [done|]. right; right; right. exists h, q', a, b. do 4 (split; [done|]). left. done.
          - congruence.
          - by eapply order_tail.
          - intros d Hd. apply p_fit0. by right. }
        simpl in H. unfold process_error in H. simpl in H. destruct Hst as [Hs|(Es & He1 & He2)].
        -- assert (x' = set_ready l x) as -> by (destruct Hs as [Es|[Es|Es]]; rewrite Es in H; by injection H as <-). by apply Hid.
        -- rewrite Es in H. destruct e; [|done|done|]; unfold handle_error in H; simpl in H; rewrite (p_plain x P) in H; (destruct (set_state _ _) as [y|] eqn:E; [|done]); injection H as <-; (eapply Hc; [done| |exact E]; auto).
      * destruct HL as [(_ & ? & _)|[(? & ? & ? & ? & _ & _ & _ & _ & ? & _)|[(h & q' & Eq & Ew & Es & En)|(? & ? & ? & ? & _ & _ & _ & _ & [[? _]|(? & ? & ? & _)])]]]; [done..| |done|done].
        injection Es as -> Es. simpl in H. rewrite Eq in H. rewrite N.eqb_refl in H. destruct P. rewrite Er in *.
        assert (Eb : (x_qbytes x - len h = total q')%N) by (rewrite p_bytes0, Eq; simpl; lia).
        destruct q' as [|p q'].
        -- injection H as <-. constructor; simpl; auto; try congruence.
           ++ intros h' Hh'. apply p_h0. by right.
           ++ by intros ? ?%elem_of_nil.
           ++ intros _. exists (dn ++ [h]). split; [by rewrite Ea, Eq, app_nil_r|]. left. rewrite Ew. do 3 (split; [done|]). rewrite concat_app. simpl. by rewrite app_nil_r.
           ++ by eapply order_tail.
           ++ intros d Hd. apply p_fit0. by right.
        -- unfold send_from_queue in H. simpl in H. injection H as <-. constructor; simpl; auto; try congruence.
           ++ intros h' Hh'. apply p_h0. by right.
           ++ intros p0 Hp0. apply p_ne0. rewrite Eq. by right.
           ++ intros _. exists (dn ++ [h]). split; [by rewrite Ea, Eq, <- app_assoc|]. rewrite Ew, concat_app. simpl. rewrite app_nil_r.
              right; left. exists p, q', [], p. rewrite app_nil_r. do 2 (split; [done|]). split; [|done]. apply p_ne0. rewrite Eq. right. left.
           ++ by eapply order_tail.
           ++ intros d Hd. apply p_fit0. by right.
    + pose proof (pl_pop _ _ _ P Er eq_refl) as P'. destruct r as [e|]; [destruct (pl_error _ _ _ P' H) as [[-> _]|]; done|].
      assert (Hst : forall y, start_receive y = Some x' -> x_state y = TUp /\ x' = set_ops (x_w y) (S (x_r y)) (x_c y) y) by (intros y; unfold start_receive; destruct (x_state y); [|done..]; by intros [= <-]).
      destruct (p_fit x P d) as [Hd Hfit]; [rewrite Er; left|]. assert (Hr : x_r x = 0%nat /\ datas l = []).
      { pose proof (p_recv x P) as Hr. rewrite Er in Hr. unfold datas in Hr. simpl in Hr. fold (datas l) in Hr. destruct (datas l); [|simpl in Hr; lia]. split; [lia|done]. }
      destruct Hr as [Hr Hdl]. assert (Hno : forall d', HRecv None d' ∉ l). { intros d' Hd'. assert (HRecv None d' ∈ datas l) as Hx by (unfold datas; rewrite elem_of_list_In, filter_In; rewrite <- elem_of_list_In; done). rewrite Hdl in Hx. by apply elem_of_nil in Hx. }
      assert (Hgo : forall buf es, (len buf < MAX_PACKET)%N -> pl (set_ops (x_w x) 1 (x_c x) (set_buf buf (add_in d es (set_ready l x))))).
      { intros buf es Hb. destruct P'. constructor; simpl in *; auto; [rewrite Hdl; simpl; lia|]. intros d' Hd'. exfalso. by apply (Hno d'). }
      cbn -[parse] in H. destruct (parse _ _) as [es rest] eqn:Ep. apply parse_spec in Ep; [|done]. destruct Ep as (Ec & _).
      assert (Hle : (len rest <= MAX_PACKET)%N /\ (length rest <> length (x_buf x ++ d) -> (len rest < MAX_PACKET)%N)).
      { pose proof (f_equal length Ec) as El. rewrite !app_length in El. unfold len in *. rewrite app_length. split; lia. } destruct Hle as [Hle Hlt].
      destruct rest as [|b rest].
      * apply Hst in H as [_ ->]. simpl. rewrite Hr. apply (Hgo []). unfold len, MAX_PACKET. simpl. lia.
      * destruct (Nat.eqb_spec (length (b :: rest)) (length (x_buf x ++ d))) as [El|El]; cbn [negb] in H; cbv iota in H.
        -- assert (Eb : len (x_buf x ++ d) = len (b :: rest)) by (unfold len; by rewrite El). destruct (N.eqb_spec (len (b :: rest)) MAX_PACKET) as [Em|Em].
           ++ destruct (set_state TFailed _) as [y|] eqn:Es; [|done]. injection H as <-. apply pl_close. assert (Hns : x_state x = TUp \/ x_state x = TFailed).
              { pose proof (p_down x P). apply set_state_eq in Es as [[_ Es]|[_ Es]]; simpl in Es; [by right|]. destruct (x_state x); auto; done. }
              assert (Ho : x_open x = true). { destruct (x_open x) eqn:Eo; [done|]. destruct (p_closed x P Eo) as [? _]. destruct Hns; congruence. }
              assert (L : live TFailed (x_w x) (sends l) (x_sendq x) (x_acc x) (x_net x)). { eapply (live_shut (x_state x)); [by right; left|]. by apply P'. }
              destruct P'. apply set_state_eq in Es as [[-> Es]|[-> Es]]; simpl in Es; constructor; simpl in *; auto; try (rewrite Es); auto; try (rewrite Hdl; simpl; lia); intros d' Hd'; exfalso; by apply (Hno d').
           ++ apply Hst in H as [_ ->]. simpl. rewrite Hr. apply (Hgo (x_buf x ++ d) es). rewrite Eb. lia.
        -- apply Hst in H as [_ ->]. simpl. rewrite Hr. apply (Hgo (b :: rest)). by apply Hlt.
    + (* deferred close *) assert (Hs : shutting (x_state x)) by (apply (c_hclose x C); rewrite Er; left). pose proof (p_order x P) as Po. rewrite Er in Po.
      assert (Hno : forall n, HSend None n ∉ l) by (intros n; by apply (Po [] l n)). unfold deferred_close in H.
      assert (Hpre : x_net x `prefix_of` concat (x_acc x)). { destruct (x_open x) eqn:Eo; [eapply live_prefix; by apply P|by apply (p_closed x P Eo)]. }
      set (z := set_sock false (x_shut x) (cancel (set_sendq [] 0 (set_ready l x)))) in *. assert (Hz : x_ready z = l ++ aborts (set_sendq [] 0 (set_ready l x))) by done.
      assert (G : pl (set_xstate TClosed z)).
      { destruct P. rewrite Er in *. constructor; simpl; auto; try done.
        - intros h. rewrite !elem_of_app. intros [?|Hh]; [apply p_h0; by right|]. rewrite <- !elem_of_app in Hh. exact (aborts_plain _ h p_c0 Hh).
        - by intros ? ?%elem_of_nil.
        - intros _. split; [done|]. do 2 (split; [done|]). split; [|done]. intros n Hn. apply sends_in in Hn; [|done]. apply elem_of_app in Hn as [Hn|Hn]; [by apply (Hno n)|by apply (aborts_none (set_sendq [] 0 (set_ready l x))) in Hn].
        - apply order_app; [by eapply order_tail|]. apply (aborts_none (set_sendq [] 0 (set_ready l x))).
        - rewrite datas_app. change (map _ _ ++ _) with (aborts x). rewrite aborts_data, app_nil_r. unfold datas in p_recv0. simpl in p_recv0. fold (datas l) in p_recv0. lia.
        - intros d Hd. apply elem_of_app in Hd as [Hd|Hd]; [apply p_fit0; by right|by apply (aborts_data_in (set_sendq [] 0 (set_ready l x))) in Hd]. }
      apply set_state_eq in H as [[-> Es]|[-> _]]; [|done]. destruct G. constructor; simpl in *; auto; try (rewrite Es); auto; congruence.
    + exfalso. destruct (p_h x P HReconnect) as [? _]; [rewrite Er; left|done].
    + exfalso. destruct (p_h x P (HConn r)) as [_ Hr]; [rewrite Er; left|]. by apply (Hr r).
  - (* written *) destruct Hok as (Ho & Hsh & p & n & Ew & Hk). rewrite Ew in H. pose proof (p_open x P Ho) as (dn & Ea & HL).
    assert (Hns : ~ shutting (x_state x)) by (intros Hs; destruct (c_shut x C Hs); congruence).
    destruct HL as [(E1 & _)|[(h & q' & a & b & Eq & Eh & Hb & E1 & E2 & En)|[(? & ? & _ & E1 & _)|(? & ? & ? & ? & _ & _ & E1 & _)]]]; rewrite E1 in Ew; try (by rewrite lookup_nil in Ew).
    destruct i as [|i]; [|by destruct i]. injection Ew as <- <-. destruct (Nat.leb_spec (length b) k).
    + injection H as <-. rewrite take_ge by done. destruct P. constructor; simpl; auto.
      * intros h'. rewrite elem_of_app. intros [?|Hz%elem_of_list_singleton]; [auto|by subst].
      * intros _. exists dn. split; [done|]. right; right; left. exists h, q'. rewrite E1, sends_app, E2. do 3 (split; [done|]). rewrite En, <- app_assoc. by rewrite Eh.
      * congruence.
      * apply order_none. rewrite elem_of_app. intros [Hc|Hc%elem_of_list_singleton]; [|done]. by apply Hns, (c_hclose x C).
      * rewrite datas_app. simpl. by rewrite app_nil_r.
      * intros d. rewrite elem_of_app. intros [?|?%elem_of_list_singleton]; [auto|done].
    + injection H as <-. destruct P. constructor; simpl; auto; [|congruence]. intros _. exists dn. split; [done|]. right; left. exists h, q', (a ++ take k b), (drop k b). rewrite E1. simpl.
      split; [done|]. split; [by rewrite <- app_assoc, take_drop|]. split; [intros Hn; apply (f_equal length) in Hn; rewrite drop_length in Hn; simpl in Hn; lia|]. split; [done|]. split; [done|]. by rewrite En, app_assoc.
  - (* write error *) destruct Hok as ((w & Ew) & He1 & He2). injection H as <-.
    destruct (x_open x) eqn:Ho; [|destruct (p_closed x P Ho) as (_ & E1 & _); by rewrite E1, lookup_nil in Ew]. pose proof (p_open x P Ho) as (dn & Ea & HL).
    destruct HL as [(E1 & _)|[(h & q' & a & b & Eq & Eh & Hb & E1 & E2 & En)|[(? & ? & _ & E1 & _)|(? & ? & ? & ? & _ & _ & E1 & _)]]]; rewrite E1 in Ew; try (by rewrite lookup_nil in Ew).
    destruct i as [|i]; [|by destruct i]. destruct P. constructor; simpl; auto.
    + intros h'. rewrite elem_of_app. intros [?|Hz%elem_of_list_singleton]; [auto|by subst].
    + intros _. exists dn. split; [done|]. right; right; right. exists h, q', a, b. rewrite E1, sends_app, E2. do 4 (split; [done|]). right. exists e, 0%N. split; [done|]. intros Hup. split; [done|]. intros ->. specialize (He2 eq_refl). destruct (p_up0 Hup). congruence.
    + congruence.
    + apply order_app; [done|]. by intros n ?%elem_of_list_singleton.
    + rewrite datas_app. simpl. by rewrite app_nil_r.
    + intros d. rewrite elem_of_app. intros [?|?%elem_of_list_singleton]; [auto|done].
  - (* received *) destruct Hok as (Ho & Hsh & Hr & Hd & Hfit). injection H as <-. destruct P. constructor; simpl; auto.
    + intros h'. rewrite elem_of_app. intros [?|Hz%elem_of_list_singleton]; [auto|by subst].
    + rewrite sends_app. simpl. by rewrite app_nil_r.
    + rewrite sends_app. simpl. by rewrite app_nil_r.
    + apply order_app; [done|]. by intros n ?%elem_of_list_singleton.
    + rewrite datas_app, app_length. simpl. lia.
    + intros d'. rewrite elem_of_app. intros [?|Hx%elem_of_list_singleton]; [auto|]. by injection Hx as ->.
  - (* receive error *) destruct Hok as (Hr & _). injection H as <-. destruct P. constructor; simpl; auto.
    + intros h'. rewrite elem_of_app. intros [?|Hz%elem_of_list_singleton]; [auto|by subst].
    + rewrite sends_app. simpl. by rewrite app_nil_r.
    + rewrite sends_app. simpl. by rewrite app_nil_r.
    + apply order_app; [done|]. by intros n ?%elem_of_list_singleton.
    + rewrite datas_app, app_length. simpl. lia.
    + intros d'. rewrite elem_of_app. intros [?|Hx%elem_of_list_singleton]; [auto|done].
  - exfalso. destruct Hok as [Hc _]. rewrite (p_c x P) in Hc. lia.
Qed.
Lemma pl_new tcp perm : tcp = false \/ perm = false -> pl (x_new tcp perm).
Proof.
  intros H. constructor; simpl; auto; try done; try (by intros ? ?%elem_of_nil).
  - destruct H as [->| ->]; [done|by rewrite andb_false_r].
  - intros _. exists []. split; [done|]. left. done.
  - intros l1 l2 n E. by destruct l1.
Qed.
Lemma step_tcp x e x' : x_step x e = Some x' -> x_tcp x' = x_tcp x.
Proof.
  assert (Hc : forall y, x_tcp (do_close y) = x_tcp y) by (intros y; unfold do_close; destruct (x_tcp y) eqn:E; simpl; destruct (x_open y); simpl; done).
  assert (Hs : forall v y z, set_state v y = Some z -> x_tcp z = x_tcp y) by (intros v y z [[-> _]|[-> _]]%set_state_eq; done).
  assert (Hst : forall y z, start_receive y = Some z -> x_tcp z = x_tcp y) by (intros y z; unfold start_receive; destruct (x_state y); [|done..]; by intros [= <-]).
  assert (He : forall e y z, process_error e y = Some z -> x_tcp z = x_tcp y).
  { intros e0 y z. assert (H : handle_error e0 y = Some z -> x_tcp z = x_tcp y).
    { unfold handle_error. destruct (_ && _); (destruct (set_state _ y) as [y'|] eqn:E; [|done]); intros [= <-]; apply Hs in E; [done|by rewrite Hc]. }
    unfold process_error. destruct (x_state y), e0; auto; by intros [= <-]. }
  intros H. destruct e as [p| |b| | |i k|i e|d|e|r]; simpl in H; try (by injection H as <-).
  - unfold transport_send, do_send in H. destruct (x_state x); try (by injection H as <-). destruct (x_sendq x); simpl in H; [unfold send_from_queue in H; simpl in H|]; by injection H as <-.
  - unfold transport_close in H. destruct (x_state x); try (by injection H as <-); (destruct (set_state _ x) as [y|] eqn:E; [|done]); injection H as <-; rewrite Hc; by eapply Hs.
  - unfold change_persistency in H. destruct (_ && _); [|by injection H as <-]. simpl in H. destruct (x_state x); try (by injection H as <-). destruct (set_state _ _) as [y|] eqn:E; [|done]. injection H as <-. rewrite Hc. by apply Hs in E.
  - destruct (x_ready x) as [|h l]; [by injection H as <-|]. destruct h as [r n|r d| | |r].
    + destruct r as [e|]; simpl in H; [by apply He in H|]. destruct (x_sendq x) as [|p q]; [done|]. destruct (_ =? _)%N; [|done]. destruct q; [by injection H as <-|]. unfold send_from_queue in H. simpl in H. by injection H as <-.
    + destruct r as [e|]; cbn -[parse] in H; [by apply He in H|]. destruct (parse _ _) as [es [|b rest]]; [by apply Hst in H|]. destruct (negb _); [by apply Hst in H|]. destruct (_ =? _)%N; [|by apply Hst in H].
      destruct (set_state TFailed _) as [y|] eqn:Es; [|done]. injection H as <-. rewrite Hc. by apply Hs in Es.
    + by apply Hs in H.
    + unfold reconnect in H. simpl in H. destruct (x_state x); try done; try (by injection H as <-). destruct (x_perm x); [|done]. by injection H as <-.
    + unfold handle_reconnect in H. simpl in H. destruct (x_state x), r; try (by injection H as <-); (destruct (set_state _ _) as [y|] eqn:E; [|done]); apply Hst in H; apply Hs in E; by rewrite H, E.
  - destruct (x_w x !! i) as [[p n]|]; [|by injection H as <-]. destruct (_ <=? _)%nat; by injection H as <-.
Qed.
Lemma plain_pl x : plain x -> pl x.
Proof.
  intros (tcp & perm & l & H & Hp). cut (pl x /\ cl x /\ x_tcp x = tcp); [tauto|]. remember (x_new tcp perm) as x0. induction H as [|l x e x' H IH Hok Hst].
  - subst. split; [apply pl_new; tauto|]. split; [apply cl_new|done].
  - assert (Hp' : tcp = false \/ perm = false /\ XPersistency true ∉ l) by (destruct Hp as [|[? Hn]]; [by left|right; split; [done|]; intros Hx; apply Hn, elem_of_app; by left]).
    destruct IH as (P & C & Ht); [done..|]. split; [|split; [by eapply step_cl|by rewrite (step_tcp _ _ _ Hst)]].
    eapply step_pl; try done. intros Htt ->. destruct Hp as [|[_ Hn]]; [congruence|]. apply Hn, elem_of_app. right. left.
Qed.
