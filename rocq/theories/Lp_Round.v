(** Fragments of one message, among other traffic, at a reassembler. *)
From stdpp Require Import gmap.
From Verif Require Import Lib Lp_Model Lp_Spec Lp_Frag Lp_Ra.

Global Instance lp_eq_dec : EqDecision lp.
Proof. solve_decision. Defined.

Section round.
  Variable block : list N -> option (list N).
  Variable ep : N.
  Variable key : ra_key.
  Variable sent : list lp.

  (** [sent] are the fragments of message [key] *)
  Record message : Prop := {
    mg_two : (2 <= length sent)%nat;
    mg_frag : forall j q, sent !! j = Some q -> index_of q = N.of_nat j /\ count_of q = N.of_nat (length sent) /\
      belongs ep q key /\ (index_of q < SEQ)%N;
  }.
  Local Notation unshared := (unshared ep key sent). Local Notation arrived := (arrived ep).
  Definition progress (h : list (ra_ev * ra_out)) (s : ra) : Prop :=
    (N.of_nat (length sent) <= ra_max s)%N /\
    match ra_parts s !! key with
    | None => forall q, q ∈ sent -> ~ arrived q h
    | Some pp => pp_count pp = N.of_nat (length sent) /\
        forall j q, sent !! j = Some q ->
          (arrived q h /\ pp_frags pp !! j = Some (Some q) \/ ~ arrived q h /\ pp_frags pp !! j = Some None)
    end.
  Hypothesis G : message.

  Lemma arrived_snoc q h x : arrived q (h ++ [x]) <-> arrived q h \/ exists o, x = (RaRecv ep q, o).
  Proof.
    unfold arrived. split.
    - intros [o [H|H%elem_of_list_singleton]%elem_of_app]; eauto.
    - intros [[o H]|[o ->]]; exists o; set_solver.
  Qed.
  Lemma sent_idx j q : sent !! j = Some q -> N.to_nat (index_of q) = j.
  Proof. intros H. destruct (mg_frag G j q H) as (-> & _). lia. Qed.
  Lemma not_whole q : q ∈ sent -> ~ is_whole q.
  Proof. intros [j Hj]%elem_of_list_lookup [_ Hc]. destruct (mg_frag G j q Hj) as (_ & Hc' & _). pose proof (mg_two G). lia. Qed.

  Lemma other_step h s e s' o : ra_inv s -> ra_ok s e -> unshared e -> ra_step block s e = Some (s', o) ->
    (forall q, q ∈ sent -> e <> RaRecv ep q) -> progress h s -> progress (h ++ [(e, o)]) s'.
  Proof.
    intros I Hok Hu Hst Hne [Hm Hp].
    assert (Harr : forall q, q ∈ sent -> arrived q (h ++ [(e, o)]) <-> arrived q h).
    { intros q Hq. rewrite arrived_snoc. split; [|by left]. intros [?|[o' [= -> ->]]]; [done|by eapply Hne in Hq]. }
    assert (Hsame : (N.of_nat (length sent) <= ra_max s')%N -> ra_parts s' !! key = ra_parts s !! key -> progress (h ++ [(e, o)]) s').
    { intros H1 H2. split; [done|]. rewrite H2. destruct (ra_parts s !! key) as [pp|].
      - destruct Hp as [Hc Hp]. split; [done|]. intros j q Hj. rewrite !Harr by (by eapply elem_of_list_lookup_2). by apply Hp.
      - intros q Hq. rewrite Harr by done. by apply Hp. }
    destruct e as [ep' p|k|m t|d]; simpl in Hst.
    - assert (Hk : forall k, belongs ep' p k -> ~ is_whole p -> (index_of p < SEQ)%N -> k <> key).
      { intros k Hb Hw Hi ->. pose proof Hb as (sq & _ & _ & He & _). simpl in Hu.
        destruct (decide (ep' = ep)) as [->|Hd]; [destruct (Hu eq_refl Hb); [done|by eapply Hne]|].
        destruct sent as [|q0 l] eqn:El; [pose proof (mg_two G) as H2; rewrite El in H2; simpl in H2; lia|].
        destruct (mg_frag G 0 q0) as (_ & _ & (sq' & _ & _ & He' & _) & _); [by rewrite El|]. congruence. }
      assert (Hi : (index_of p < SEQ)%N) by (unfold index_of; destruct Hok as [_ Hi]; destruct (lp_idx p); [by apply Hi|done]).
      apply receive_cases in Hst; [|done|done]. destruct Hst as [| | |k p0 q0 Hc Hw Hb _ _ _ _ _ -> _ _|k p0 ps pieces first s1 o1 Hc Hw Hb _ _ _ _ _ _ _ _ _ Hx];
        try (by apply Hsame).
      + apply Hsame; [done|]. simpl. rewrite lookup_insert_ne by (by apply Hk). done.
      + destruct (block (concat pieces)); destruct Hx as [-> ->]; (apply Hsame; [done|]); simpl.
        * rewrite lookup_delete_ne by (by apply Hk). done.
        * rewrite lookup_insert_ne by (by apply Hk). done.
    - injection Hst as <- <-. apply Hsame; [done|]. simpl. by rewrite lookup_delete_ne.
    - injection Hst as <- <-. by apply Hsame.
    - injection Hst as <- <-. by apply Hsame.
  Qed.

  (** one of the fragments arrives *)
  Lemma mine_step h s q s' o : ra_inv s -> ra_ok s (RaRecv ep q) -> q ∈ sent ->
    ra_step block s (RaRecv ep q) = Some (s', o) -> progress h s ->
    (exists q', q' ∈ sent /\ ~ arrived q' (h ++ [(RaRecv ep q, o)])) /\ o = RNone /\ progress (h ++ [(RaRecv ep q, o)]) s' \/
    (forall q', q' ∈ sent -> arrived q' (h ++ [(RaRecv ep q, o)])) /\ ~ arrived q h /\
      (exists pieces first, map lp_frag sent = map Some pieces /\ sent !! 0%nat = Some first /\
        match block (concat pieces) with
        | Some b => ra_parts s' !! key = None /\ o = RPacket b first
        | None => o = RError
        end) \/
    arrived q h /\ s' = s /\ o = RNone.
  Proof.
    intros I Hok Hin Hst [Hm Hp]. simpl in Hst. apply receive_cases in Hst; [|done|done].
    pose proof Hin as Hin0. apply elem_of_list_lookup in Hin as [j Hj]. destruct (mg_frag G j q Hj) as (Hi & Hc & Hb & Hi64). pose proof (sent_idx j q Hj) as Hij.
    assert (Hjl : (j < length sent)%nat) by (by eapply lookup_lt_Some).
    destruct Hst as [Hbad|net Hw _ _|k pp Hr Hw Hb' Hpp Hd|k pp q0 Hr Hw Hb' Hk Hpp Ec Hn Ho -> Hok' Hst|k pp ps pieces first s1 o1 Hr Hw Hb' Hk Hpp Ec Hn Ho Hok' Eps Hf Hpc Hx].
    - exfalso. destruct Hb as (sq & Hs & _). destruct Hbad as [?|[?|[_ ?]]]; [lia|lia|congruence].
    - by apply not_whole in Hw.
    - right; right. assert (k = key) as -> by (by eapply belongs_fun). rewrite Hpp in Hp. destruct Hp as [Hpc Hp].
      destruct Hd as [?|[q' Hq']]; [congruence|]. rewrite Hij in Hq'. destruct (Hp j q Hj) as [[Ha _]|[_ Hx]]; [done|congruence].
    - assert (k = key) as -> by (by eapply belongs_fun). rewrite Hij in Hn.
      assert (Hna : ~ arrived q h). { destruct Hpp as [Hpp|[Hpp _]]; rewrite Hpp in Hp; [|by apply Hp]. destruct Hp as [_ Hp]. destruct (Hp j q Hj) as [[_ ?]|[? _]]; [congruence|done]. }
      assert (Hfr : forall i q', sent !! i = Some q' -> (arrived q' (h ++ [(RaRecv ep q, RNone)]) /\ pp_frags (put_frag (index_of q) q pp) !! i = Some (Some q')) \/
         (~ arrived q' (h ++ [(RaRecv ep q, RNone)]) /\ pp_frags (put_frag (index_of q) q pp) !! i = Some None)).
      { intros i q' Hq'. simpl. rewrite Hij, arrived_snoc. destruct (decide (i = j)) as [->|Hne].
        - left. split; [right; exists RNone; congruence|]. rewrite list_lookup_insert; [congruence|by eapply lookup_lt_Some].
        - rewrite list_lookup_insert_ne by done.
          assert (q' <> q) by (intros ->; apply Hne; rewrite <- Hij; symmetry; by apply sent_idx).
          destruct Hpp as [Hpp|[Hpp ->]]; rewrite Hpp in Hp.
          + destruct Hp as [_ Hp]. destruct (Hp i q' Hq') as [[Ha Hx]|[Ha Hx]]; [by left; split; [left|]|right; split; [|done]].
            intros [?|[o' [= ->]]]; [done|congruence].
          + right. split; [|simpl; apply lookup_replicate; split; [done|]; apply lookup_lt_Some in Hq'; lia].
            intros [?|[o' [= ->]]]; [|congruence]. eapply Hp; [|done]. by eapply elem_of_list_lookup_2. }
      assert (Hcnt : pp_count pp = N.of_nat (length sent)) by congruence.
      left. split; [|split; [done|]].
      + destruct (decide (Exists (fun x => x = None) (pp_frags (put_frag (index_of q) q pp)))) as [[x [[i Hix]%elem_of_list_lookup ->]]%Exists_exists|Hall].
        * assert (Hil : (i < length sent)%nat). { apply lookup_lt_Some in Hix. pose proof (po_len _ _ Hok') as HL. simpl in HL, Hix. lia. }
          apply lookup_lt_is_Some in Hil as [q' Hq']. exists q'. split; [by eapply elem_of_list_lookup_2|]. destruct (Hfr i q' Hq') as [[_ ?]|[? _]]; [congruence|done].
        * exfalso. apply Hst. rewrite Hc. pose proof (po_len _ _ Hok') as HL. simpl in HL. rewrite Hcnt in HL. change (<[N.to_nat (index_of q):=Some q]> (pp_frags pp)) with (pp_frags (put_frag (index_of q) q pp)) in HL.
          rewrite <- HL. clear -Hall. induction (pp_frags (put_frag (index_of q) q pp)) as [|[x|] l IH]; simpl; [done| |].
          -- rewrite IH; [lia|]. intros ?. apply Hall. by right.
          -- exfalso. apply Hall. by left.
      + split; [done|]. simpl. rewrite lookup_insert. simpl. split; [done|]. exact Hfr.
    - assert (k = key) as -> by (by eapply belongs_fun). rewrite Hij in Hn. right; left.
      assert (Hna : ~ arrived q h). { destruct Hpp as [Hpp|[Hpp _]]; rewrite Hpp in Hp; [|by apply Hp]. destruct Hp as [_ Hp]. destruct (Hp j q Hj) as [[_ ?]|[? _]]; [congruence|done]. }
      assert (Hcnt : pp_count pp = N.of_nat (length sent)) by congruence.
      assert (Hlen : length ps = length sent). { pose proof (po_len _ _ Hok') as HL. rewrite Eps, fmap_length in HL. simpl in HL. lia. }
      assert (Hps : forall i q', sent !! i = Some q' -> arrived q' (h ++ [(RaRecv ep q, o1)]) /\ ps !! i = Some q').
      { intros i q' Hq'. rewrite arrived_snoc. assert (Hx' : Some <$> ps !! i = pp_frags (put_frag (index_of q) q pp) !! i) by (rewrite Eps; symmetry; apply list_lookup_fmap).
        simpl in Hx'. rewrite Hij in Hx'. destruct (decide (i = j)) as [->|Hne].
        - rewrite list_lookup_insert in Hx' by (by eapply lookup_lt_Some). rewrite Hj in Hq'. injection Hq' as <-. split; [right; by exists o1|]. by destruct (ps !! j); simplify_eq/=.
        - rewrite list_lookup_insert_ne in Hx' by done.
          destruct (lookup_lt_is_Some_2 ps i) as [y Hy]; [rewrite Hlen; by eapply lookup_lt_Some|]. rewrite Hy in Hx'. simpl in Hx'.
          destruct Hpp as [Hpp|[Hpp ->]]; rewrite Hpp in Hp; [|simpl in Hx'; symmetry in Hx'; by apply lookup_replicate in Hx' as [? _]].
          destruct Hp as [_ Hp]. destruct (Hp i q' Hq') as [[Ha Hz]|[Ha Hz]]; [|congruence]. split; [by left|congruence]. }
      assert (ps = sent) as ->.
      { apply list_eq. intros i. destruct (sent !! i) as [q'|] eqn:E; [by apply Hps|]. apply lookup_ge_None. apply lookup_ge_None in E. lia. }
      split; [intros q' [i Hi']%elem_of_list_lookup; by eapply Hps|]. split; [done|]. exists pieces, first. split; [done|]. split; [done|].
      destruct (block (concat pieces)); destruct Hx as [-> ->]; [|done]. split; [|done]. simpl. apply lookup_delete.
  Qed.

  (** while fragments are missing, they are only stored *)
  Lemma waits s0 h s : ra_inv s0 -> ra_parts s0 !! key = None -> (N.of_nat (length sent) <= ra_max s0)%N ->
    ra_hist block s0 h s -> (forall x, x ∈ h -> unshared (fst x)) -> (exists q, q ∈ sent /\ ~ arrived q h) ->
    ra_inv s /\ progress h s /\ forall q o, q ∈ sent -> (RaRecv ep q, o) ∈ h -> o = RNone.
  Proof.
    intros I0 Hk0 Hm0. induction 1 as [|h s e s' o H IH Hok Hst]; intros Hu (q0 & Hq0 & Hna).
    - split; [done|]. split; [|by intros q o _ ?%elem_of_nil]. split; [done|]. rewrite Hk0. intros q Hq [o ?%elem_of_nil]. done.
    - destruct IH as (I & P & Ho); [intros; apply Hu; set_solver|exists q0; split; [done|]; intros ?; apply Hna, arrived_snoc; by left|].
      split; [by eapply step_inv|]. assert (Hmine : (exists q, q ∈ sent /\ e = RaRecv ep q) \/ forall q, q ∈ sent -> e <> RaRecv ep q).
      { destruct e as [ep' q| | |]; try (by right). destruct (decide (ep' = ep)) as [->|]; [|right; congruence].
        destruct (decide (q ∈ sent)) as [Hin|Hin]; [left; eauto|right; congruence]. }
      destruct Hmine as [(q & Hin & ->)|Hne].
      + destruct (mine_step h s q s' o I Hok Hin Hst P) as [(_ & -> & P')|[(Hall & _)|(Ha & -> & ->)]].
        * split; [done|]. intros q' o Hin' [Hx|Hx%elem_of_list_singleton]%elem_of_app; [by eapply Ho|congruence].
        * exfalso. by apply Hna, Hall.
        * split.
          -- destruct P as [P1 P2]. split; [done|]. destruct (ra_parts s !! key) as [pp|].
             ++ destruct P2 as [P2 P3]. split; [done|]. intros j q' Hj. destruct (P3 j q' Hj) as [[? ?]|[Hn ?]]; [left; split; [apply arrived_snoc; by left|done]|].
                right. split; [|done]. rewrite arrived_snoc. intros [?|[o' [= -> _]]]; done.
             ++ exfalso. by eapply P2.
          -- intros q' o Hq' [Hx|Hx%elem_of_list_singleton]%elem_of_app; [by eapply Ho|congruence].
      + split; [eapply other_step; try done; apply (Hu (e, o)); set_solver|].
        intros q' o' Hq' [Hx|Hx%elem_of_list_singleton]%elem_of_app; [by eapply Ho|]. injection Hx as <- <-. by eapply Hne in Hq'.
  Qed.
End round.
