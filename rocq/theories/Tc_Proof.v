(** Lemmas on the "tables" section *)
From Coq Require Import String Ascii.
From stdpp Require Import gmap strings.
From Verif Require Import Lib Name_Model Name_Proof Packet_Model Tree_Model Tree_Proof Tab_Model Tab_Spec Tab_At Tab_Sc Tab_Run Tab_Main Fw_Model Fw_Spec Fw_Inv Fw_Case3 Fw_Hist Fw_Main Cfg_Model Cfg_Spec Cfg_Props Tc_Model Tc_Spec.
From Verif Require Cs_Model Cs_Spec Cs_Props Dnl_Model.
Open Scope string_scope.
Open Scope list_scope.

Lemma elsewhere_refl s : same_elsewhere s s.
Proof. by split. Qed.
Lemma elsewhere_trans s1 s2 s3 : same_elsewhere s1 s2 -> same_elsewhere s2 s3 -> same_elsewhere s1 s3.
Proof. intros [] []. split; try congruence; intros k; etransitivity; eauto. Qed.

(** ** Reading the choices *)
Definition below (x y : name * name) : Prop := name_cmp (fst x) (fst y) = Lt.
Lemma below_irrefl p : name_cmp p p <> Lt.
Proof. by rewrite (cmp_refl name_cmp_ok). Qed.
Lemma choice_add_ok p x l : StronglySorted below l ->
  match choice_add p x l with
  | Some l' => l' ≡ₚ (p, x) :: l /\ StronglySorted below l' /\ p ∉ fst <$> l
  | None => p ∈ fst <$> l
  end.
Proof.
  induction 1 as [|[q y] l Hs IH Hf]; simpl; [split; [done|]; split; [repeat constructor|apply not_elem_of_nil]|].
  destruct (name_cmp p q) eqn:E.
  - apply (cmp_eq name_cmp_ok) in E as ->. left.
  - assert (Hall : Forall (below (p, x)) l) by (eapply Forall_impl; [exact Hf|]; intros [q' y'] Hq; eapply (cmp_trans name_cmp_ok); [exact E|exact Hq]).
    split; [done|]. split; [constructor; [by constructor|]; by constructor|].
    intros [->|Hin]%elem_of_cons; [by apply below_irrefl in E|]. apply elem_of_list_fmap in Hin as ([q' y'] & -> & Hin). rewrite Forall_forall in Hall. by apply Hall, below_irrefl in Hin.
  - destruct (choice_add p x l) as [l'|]; simpl.
    + destruct IH as (Hp & Hs' & Hn). split; [rewrite Hp; apply Permutation_swap|]. split.
      * constructor; [done|]. rewrite Hp. constructor; [|done]. unfold below; simpl. by apply (cmp_gt_lt name_cmp_ok).
      * intros [->|?]%elem_of_cons; [|done]. by rewrite (cmp_refl name_cmp_ok) in E.
    + by right.
Qed.

Section Read.
Variable name_of : string -> option name.
Variable can_create : name -> bool.
Notation read_choices := (read_choices name_of can_create).
(** the line [kv] of the file says that [p] has [x] *)
Definition line (kv : string * ptree) (px : name * name) : Prop := name_of (fst kv) = Some (fst px) /\ name_of (pt_value (snd kv)) = Some (snd px) /\ can_create (snd px) = true.
Lemma read_choices_ok l acc : StronglySorted below acc ->
  match read_choices l acc with
  | Some r => exists ls, Forall2 line l ls /\ r ≡ₚ ls ++ acc /\ StronglySorted below r
  | None => ~ exists ls, Forall2 line l ls /\ NoDup (fst <$> ls ++ acc)
  end.
Proof.
  revert acc. induction l as [|[k t] l IH]; intros acc Hs; cbn [Tc_Model.read_choices]; [by exists []|].
  destruct (name_of k) as [p|] eqn:Ek; [|intros (ls & Hl & _); inversion Hl as [|? px ? ? (H1 & _) _]; simpl in *; congruence].
  destruct (name_of (pt_value t)) as [x|] eqn:Et; [|intros (ls & Hl & _); inversion Hl as [|? px ? ? (_ & H1 & _) _]; simpl in *; congruence].
  destruct (can_create x) eqn:Ec; [|intros (ls & Hl & _); inversion Hl as [|? px ? ? (_ & H1 & H2) _]; simpl in *; congruence].
  pose proof (choice_add_ok p x acc Hs) as Ha. destruct (choice_add p x acc) as [acc'|].
  - destruct Ha as (Hp & Hs' & Hn). specialize (IH acc' Hs'). destruct (read_choices l acc') as [r|].
    + destruct IH as (ls & H1 & H2 & H3). exists ((p, x) :: ls). split; [constructor; [done|done]|]. split; [|done]. rewrite H2, Hp. simpl. by rewrite Permutation_middle.
    + intros (ls & Hl & Hd). inversion Hl as [|? px ? ls' (H1 & H2 & H3) Hl' E1 E2]; subst. apply IH. exists ls'. split; [done|]. rewrite Hp. destruct px as [p' x']. simpl in *. assert (p' = p) as -> by congruence. assert (x' = x) as -> by congruence.
      assert (Hpe : fst <$> ls' ++ (p, x) :: acc ≡ₚ fst <$> (p, x) :: ls' ++ acc) by (apply fmap_Permutation; symmetry; apply Permutation_middle). rewrite Hpe. done.
  - intros (ls & Hl & Hd). inversion Hl as [|? px ? ls' (H1 & H2 & H3) Hl' E1 E2]; subst. destruct px as [p' x']. simpl in *. assert (p' = p) as -> by congruence. apply NoDup_cons in Hd as [Hd _]. apply Hd. rewrite fmap_app. apply elem_of_app. by right.
Qed.
Lemma sorted_nodup l : StronglySorted below l -> NoDup (fst <$> l).
Proof.
  induction 1 as [|[q y] l Hs IH Hf]; simpl; constructor; [|done]. intros Hin. apply elem_of_list_fmap in Hin as ([q' y'] & -> & Hin). rewrite Forall_forall in Hf. by apply Hf, below_irrefl in Hin.
Qed.
(** all lines can be read and no prefix is there twice, as in [choices_ok] *)
Definition lines_ok (l : list (string * ptree)) : Prop :=
  (forall k v, (k, v) ∈ l -> exists p x, name_of k = Some p /\ name_of (pt_value v) = Some x /\ can_create x = true) /\
  (forall i j k v k' v', l !! i = Some (k, v) -> l !! j = Some (k', v') -> name_of k = name_of k' -> i = j).
Lemma lines_ok_iff l : lines_ok l <-> exists ls, Forall2 line l ls /\ NoDup (fst <$> ls).
Proof.
  split.
  - intros [H1 H2]. assert (Hex : exists ls, Forall2 line l ls).
    { clear H2. induction l as [|[k v] l IH]; [by exists []|]. destruct (H1 k v) as (p & x & ? & ? & ?); [left|]. destruct IH as [ls Hls]; [intros; apply H1; by right|]. exists ((p, x) :: ls). by constructor. }
    destruct Hex as [ls Hls]. exists ls. split; [done|]. apply NoDup_alt. intros i j p Hi Hj. rewrite list_lookup_fmap in Hi, Hj.
    destruct (ls !! i) as [px|] eqn:Ei; [|done]. destruct (ls !! j) as [px'|] eqn:Ej; [|done]. simpl in *.
    destruct (Forall2_lookup_r _ _ _ _ _ Hls Ei) as ([k v] & Hli & (La & _)). destruct (Forall2_lookup_r _ _ _ _ _ Hls Ej) as ([k' v'] & Hlj & (Lb & _)). eapply H2; [exact Hli|exact Hlj|]. simpl in *. congruence.
  - intros (ls & Hls & Hd). split.
    + intros k v Hin. apply elem_of_list_lookup in Hin as [i Hi]. destruct (Forall2_lookup_l _ _ _ _ _ Hls Hi) as ([p x] & _ & (? & ? & ?)). by exists p, x.
    + intros i j k v k' v' Hi Hj He. destruct (Forall2_lookup_l _ _ _ _ _ Hls Hi) as ([p x] & Pi & (A1 & _)). destruct (Forall2_lookup_l _ _ _ _ _ Hls Hj) as ([p' x'] & Pj & (B1 & _)). simpl in *.
      eapply (proj1 (NoDup_alt _) Hd i j p); rewrite list_lookup_fmap; [by rewrite Pi|rewrite Pj; simpl; congruence].
Qed.
Lemma line_elem l ls : Forall2 line l ls -> forall p x, (p, x) ∈ ls <-> exists k v, (k, v) ∈ l /\ name_of k = Some p /\ name_of (pt_value v) = Some x.
Proof.
  induction 1 as [|[k v] [p x] l ls (H1 & H2 & H3) Hl IH]; intros q y.
  - split; [by intros ?%elem_of_nil|]. by intros (? & ? & ?%elem_of_nil & _).
  - rewrite elem_of_cons, IH. simpl in *. split.
    + intros [[= -> ->]|(k' & v' & ? & ?)]; [exists k, v; split; [left|done]|]. exists k', v'. split; [by right|done].
    + intros (k' & v' & [[= -> ->]|Hin]%elem_of_cons & A1 & A2); [left; congruence|right; by exists k', v'].
Qed.
(** the choices as they are read: in the order of names, those of the file *)
Lemma read_ok l :
  match read_choices l [] with
  | Some r => lines_ok l /\ StronglySorted below r /\ forall p x, (p, x) ∈ r <-> exists k v, (k, v) ∈ l /\ name_of k = Some p /\ name_of (pt_value v) = Some x
  | None => ~ lines_ok l
  end.
Proof.
  pose proof (read_choices_ok l [] (SSorted_nil _)) as H. destruct (read_choices l []) as [r|].
  - destruct H as (ls & H1 & H2 & H3). rewrite app_nil_r in H2. split; [|split; [done|]].
    + apply lines_ok_iff. exists ls. split; [done|]. rewrite <-H2. by apply sorted_nodup.
    + intros p x. rewrite H2. by apply line_elem.
  - intros Hl%lines_ok_iff. apply H. destruct Hl as (ls & ? & ?). exists ls. by rewrite app_nil_r.
Qed.
End Read.
