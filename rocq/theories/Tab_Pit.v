From stdpp Require Import gmap.
From Verif Require Import Lib Name_Model Name_Proof Packet_Model Nt_Model Nt_Spec Nt_Tree Tree_Model Tree_Proof Tab_Model Tab_Spec Tab_At Tab_Fib.

Global Instance pit_key_eq_dec : EqDecision pit_key.
Proof. solve_decision. Defined.
Lemma keyb_eq k k' : keyb k k' = true <-> k = k'.
Proof.
  unfold keyb. rewrite !andb_true_iff, name_eqb_eq, !Bool.eqb_true_iff.
  destruct k, k'; simpl. split; [by intros [[-> ->] ->]|by intros [= -> -> ->]].
Qed.
Lemma keyb_refl k : keyb k k = true.
Proof. by apply keyb_eq. Qed.
Lemma keyb_neq k k' : keyb k k' = false <-> k <> k'.
Proof. rewrite <- not_true_iff_false, keyb_eq. done. Qed.

(** * Entry lists *)
Definition key_find (k : pit_key) (l : list pit_entry) : option pit_entry :=
  List.find (fun pe => keyb k (pe_key pe)) l.
Lemma key_find_Some k l pe : NoDup (pe_key <$> l) -> key_find k l = Some pe <-> pe ∈ l /\ pe_key pe = k.
Proof.
  unfold key_find. induction l as [|x l IH]; intros Hn; simpl.
  - split; [done|]. by intros [?%elem_of_nil _].
  - change (pe_key <$> x :: l) with (pe_key x :: (pe_key <$> l)) in Hn. apply NoDup_cons in Hn as [Hx Hn].
    rewrite elem_of_cons. destruct (keyb k (pe_key x)) eqn:E.
    + apply keyb_eq in E as ->. split; [intros [= <-]; by split; [left|]|].
      intros [[->|Hin] Hk]; [done|]. exfalso. apply Hx. rewrite <- Hk. by apply elem_of_list_fmap_1.
    + apply keyb_neq in E. rewrite IH by done. split; [intros [? ?]; by split; [right|]|].
      intros [[->|?] ?]; [congruence|done].
Qed.
Lemma key_find_None k l : key_find k l = None <-> forall pe, pe ∈ l -> pe_key pe <> k.
Proof.
  unfold key_find. induction l as [|x l IH]; simpl.
  - split; [|done]. intros _ pe H. by apply elem_of_nil in H.
  - destruct (keyb k (pe_key x)) eqn:E.
    + apply keyb_eq in E. split; [done|]. intros H. exfalso. apply (H x); [by left|done].
    + apply keyb_neq in E. rewrite IH. split; intros H pe.
      * rewrite elem_of_cons. intros [->|?]; [congruence|by apply H].
      * intros Hp. apply H. by right.
Qed.

Lemma pit_index_Some k l i : pit_index k l = Some i -> exists pe, l !! i = Some pe /\ pe_key pe = k.
Proof.
  revert i. induction l as [|x l IH]; intros i; simpl; [done|]. destruct (keyb k (pe_key x)) eqn:E.
  - intros [= <-]. exists x. split; [done|]. symmetry. by apply keyb_eq.
  - destruct (pit_index k l) as [j|]; [|done]. intros [= <-]. by apply IH.
Qed.
Lemma pit_index_None k l : pit_index k l = None -> key_find k l = None.
Proof.
  unfold key_find. induction l as [|x l IH]; simpl; [done|]. destruct (keyb k (pe_key x)); [done|].
  destruct (pit_index k l); [done|]. auto.
Qed.

Lemma swap_remove {A} (l : list A) i x b : l !! i = Some x -> last l = Some b ->
  l ≡ₚ x :: removelast (<[i := b]> l).
Proof.
  intros Hi Hb. apply last_Some in Hb as [l0 ->]. pose proof (lookup_lt_Some _ _ _ Hi) as Hl.
  rewrite app_length in Hl. simpl in Hl. destruct (decide (i = length l0)) as [->|Hne].
  - rewrite lookup_app_r, Nat.sub_diag in Hi by lia. injection Hi as ->.
    rewrite insert_app_r_alt by lia. rewrite Nat.sub_diag. simpl. rewrite removelast_last.
    by rewrite <- Permutation_cons_append.
  - rewrite insert_app_l by lia. rewrite removelast_last. rewrite lookup_app_l in Hi by lia.
    rewrite insert_take_drop by lia. rewrite <- (take_drop_middle l0 i x Hi) at 1.
    rewrite <- !app_assoc. simpl. rewrite <- Permutation_middle. constructor.
    rewrite app_assoc. rewrite <- Permutation_cons_append. by rewrite Permutation_middle.
Qed.

Lemma erase_pit_entry_ok k l pe : NoDup (pe_key <$> l) -> key_find k l = Some pe ->
  exists l', erase_pit_entry k l = Some l' /\ l ≡ₚ pe :: l'.
Proof.
  intros Hn Hf. unfold erase_pit_entry. destruct (pit_index k l) as [i|] eqn:E.
  - apply pit_index_Some in E as (x & Hi & Hk).
    assert (x = pe) as ->.
    { assert (key_find k l = Some x) by (apply key_find_Some; [done|]; split; [by eapply elem_of_list_lookup_2|done]). congruence. }
    destruct (last l) as [b|] eqn:Eb.
    + eexists. split; [done|]. by apply swap_remove.
    + apply last_None in Eb. subst. by destruct i.
  - apply pit_index_None in E. congruence.
Qed.

(** * Records *)
Definition rec_faces_in (l : list in_record) : list N := (fun r => fr_face (ir_rec r)) <$> l.
Definition rec_faces_out (l : list out_record) : list N := (fun r => fr_face (or_rec r)) <$> l.

Global Arguments rec_faces_in : simpl never.
Global Arguments rec_faces_out : simpl never.
Lemma rec_faces_in_cons r l : rec_faces_in (r :: l) = fr_face (ir_rec r) :: rec_faces_in l.
Proof. done. Qed.
Lemma rec_faces_out_cons r l : rec_faces_out (r :: l) = fr_face (or_rec r) :: rec_faces_out l.
Proof. done. Qed.

Lemma in_update_None f i t l : in_update f i t l = None <-> f ∉ rec_faces_in l.
Proof.
  unfold rec_faces_in. induction l as [|r l IH]; simpl; [split; [intros _; apply not_elem_of_nil|done]|].
  rewrite elem_of_cons. destruct (N.eqb_spec (fr_face (ir_rec r)) f) as [E|E].
  - split; [done|]. intros H. exfalso. apply H. by left.
  - destruct (in_update f i t l); simpl.
    + split; [done|]. intros H. exfalso. assert (Hx : Some l0 = None) by (apply IH; tauto). done.
    + split; [|done]. intros _ [?|?]; [congruence|]. by apply IH.
Qed.
Lemma in_update_Some f i t l l' : in_update f i t l = Some l' ->
  rec_faces_in l' = rec_faces_in l /\
  exists r, find_in f l = Some r /\ find_in f l' = Some (InRecord (record_update i t (ir_rec r)) i) /\
    (forall g, g <> f -> find_in g l' = find_in g l) /\
    (forall r', r' ∈ l' -> r' = InRecord (record_update i t (ir_rec r)) i \/ r' ∈ l).
Proof.
  revert l'. induction l as [|r l IH]; intros l'; simpl; [done|].
  unfold find_in. destruct (N.eqb_spec (fr_face (ir_rec r)) f) as [E|E].
  - intros [= <-]. split; [done|]. exists r. simpl. rewrite E, N.eqb_refl. split; [done|]. split; [done|]. split.
    + intros g Hg. destruct (N.eqb_spec f g); [congruence|done].
    + intros r' [->|?]%elem_of_cons; [by left|right; by right].
  - destruct (in_update f i t l) as [l1|]; [|done]. intros [= <-].
    destruct (IH l1 eq_refl) as (Hfa & x & H1 & H2 & H3 & H4). split; [by rewrite !rec_faces_in_cons, Hfa|].
    exists x. simpl. destruct (N.eqb_spec (fr_face (ir_rec r)) f) as [|_]; [done|]. split; [done|]. split; [done|]. split.
    + intros g Hg. destruct (N.eqb (fr_face (ir_rec r)) g); [done|]. by apply H3.
    + intros r' [->|[?|?]%H4]%elem_of_cons; [right; by left|by left|right; by right].
Qed.
Lemma out_update_None f i t l : out_update f i t l = None <-> f ∉ rec_faces_out l.
Proof.
  unfold rec_faces_out. induction l as [|r l IH]; simpl; [split; [intros _; apply not_elem_of_nil|done]|].
  rewrite elem_of_cons. destruct (N.eqb_spec (fr_face (or_rec r)) f) as [E|E].
  - split; [done|]. intros H. exfalso. apply H. by left.
  - destruct (out_update f i t l); simpl.
    + split; [done|]. intros H. exfalso. assert (Hx : Some l0 = None) by (apply IH; tauto). done.
    + split; [|done]. intros _ [?|?]; [congruence|]. by apply IH.
Qed.
Lemma out_update_Some f i t l l' : out_update f i t l = Some l' ->
  rec_faces_out l' = rec_faces_out l /\
  exists r, find_out f l = Some r /\ find_out f l' = Some (OutRecord (record_update i t (or_rec r)) (or_nack r)) /\
    (forall g, g <> f -> find_out g l' = find_out g l).
Proof.
  revert l'. induction l as [|r l IH]; intros l'; simpl; [done|].
  unfold find_out. destruct (N.eqb_spec (fr_face (or_rec r)) f) as [E|E].
  - intros [= <-]. split; [done|]. exists r. simpl. rewrite E, N.eqb_refl. split; [done|]. split; [done|].
    intros g Hg. destruct (N.eqb_spec f g); [congruence|done].
  - destruct (out_update f i t l) as [l1|]; [|done]. intros [= <-].
    destruct (IH l1 eq_refl) as (Hfa & x & H1 & H2 & H3). split; [by rewrite !rec_faces_out_cons, Hfa|].
    exists x. simpl. destruct (N.eqb_spec (fr_face (or_rec r)) f) as [|_]; [done|]. split; [done|]. split; [done|].
    intros g Hg. destruct (N.eqb (fr_face (or_rec r)) g); [done|]. by apply H3.
Qed.
Lemma find_in_None f l : find_in f l = None <-> f ∉ rec_faces_in l.
Proof.
  unfold find_in, rec_faces_in. induction l as [|r l IH]; simpl; [split; [intros _; apply not_elem_of_nil|done]|].
  rewrite elem_of_cons. destruct (N.eqb_spec (fr_face (ir_rec r)) f) as [E|E].
  - split; [done|]. intros H. exfalso. apply H. by left.
  - rewrite IH. split; [|tauto]. intros H [?|?]; [congruence|done].
Qed.
Lemma find_out_None f l : find_out f l = None <-> f ∉ rec_faces_out l.
Proof.
  unfold find_out, rec_faces_out. induction l as [|r l IH]; simpl; [split; [intros _; apply not_elem_of_nil|done]|].
  rewrite elem_of_cons. destruct (N.eqb_spec (fr_face (or_rec r)) f) as [E|E].
  - split; [done|]. intros H. exfalso. apply H. by left.
  - rewrite IH. split; [|tauto]. intros H [?|?]; [congruence|done].
Qed.
Lemma find_in_Some f l r : find_in f l = Some r -> r ∈ l /\ fr_face (ir_rec r) = f.
Proof. unfold find_in. intros [H E]%find_some. split; [by apply elem_of_list_In|by apply N.eqb_eq]. Qed.
Lemma find_out_Some f l r : find_out f l = Some r -> r ∈ l /\ fr_face (or_rec r) = f.
Proof. unfold find_out. intros [H E]%find_some. split; [by apply elem_of_list_In|by apply N.eqb_eq]. Qed.
Lemma elem_find_in l r : NoDup (rec_faces_in l) -> r ∈ l -> find_in (fr_face (ir_rec r)) l = Some r.
Proof.
  unfold find_in. induction l as [|x l IH]; [by intros _ ?%elem_of_nil|]. unfold rec_faces_in.
  change (?f <$> x :: l) with (f x :: (f <$> l)). intros [Hx Hn]%NoDup_cons [->|Hin]%elem_of_cons; simpl.
  - by rewrite N.eqb_refl.
  - destruct (N.eqb_spec (fr_face (ir_rec x)) (fr_face (ir_rec r))) as [E|E]; [|by apply IH].
    exfalso. apply Hx. cbv beta. rewrite E. by apply (elem_of_list_fmap_1 (fun r => fr_face (ir_rec r))).
Qed.
Lemma elem_find_out l r : NoDup (rec_faces_out l) -> r ∈ l -> find_out (fr_face (or_rec r)) l = Some r.
Proof.
  unfold find_out. induction l as [|x l IH]; [by intros _ ?%elem_of_nil|]. unfold rec_faces_out.
  change (?f <$> x :: l) with (f x :: (f <$> l)). intros [Hx Hn]%NoDup_cons [->|Hin]%elem_of_cons; simpl.
  - by rewrite N.eqb_refl.
  - destruct (N.eqb_spec (fr_face (or_rec x)) (fr_face (or_rec r))) as [E|E]; [|by apply IH].
    exfalso. apply Hx. cbv beta. rewrite E. by apply (elem_of_list_fmap_1 (fun r => fr_face (or_rec r))).
Qed.

(** the record a face has after insertOrUpdate *)
Lemma insert_in_ok f i t l : NoDup (rec_faces_in l) ->
  let l' := insert_or_update_in f i t l in
  NoDup (rec_faces_in l') /\
  (forall g, find_in g l' =
     if decide (g = f) then
       Some (InRecord (record_update i t (match find_in f l with Some r => ir_rec r | None => new_record f end)) i)
     else find_in g l) /\
  (forall r, r ∈ l' -> r ∈ l \/ exists r0, r = InRecord (record_update i t r0) i).
Proof.
  intros Hn l'. unfold l', insert_or_update_in. destruct (in_update f i t l) as [l1|] eqn:E.
  - apply in_update_Some in E as (Hfa & r & H1 & H2 & H3 & H4). split; [by rewrite Hfa|]. split.
    + intros g. destruct (decide (g = f)) as [->|]; [by rewrite H1|by apply H3].
    + intros r' [?|?]%H4; [right; eauto|by left].
  - apply in_update_None in E. split; [|split].
    + unfold rec_faces_in. change (?f <$> ?x :: l) with (f x :: (f <$> l)). constructor; done.
    + intros g. unfold find_in. simpl. destruct (decide (g = f)) as [->|Hne].
      * rewrite N.eqb_refl. fold (find_in f l). rewrite (proj2 (find_in_None f l) E). done.
      * destruct (N.eqb_spec f g); [congruence|done].
    + intros r [->|?]%elem_of_cons; [right; eauto|by left].
Qed.
Lemma insert_out_ok f i t l : NoDup (rec_faces_out l) ->
  let l' := insert_or_update_out f i t l in
  NoDup (rec_faces_out l') /\
  (forall g, find_out g l' =
     if decide (g = f) then
       Some (match find_out f l with
             | Some r => OutRecord (record_update i t (or_rec r)) (or_nack r)
             | None => OutRecord (record_update i t (new_record f)) None
             end)
     else find_out g l).
Proof.
  intros Hn l'. unfold l', insert_or_update_out. destruct (out_update f i t l) as [l1|] eqn:E.
  - apply out_update_Some in E as (Hfa & r & H1 & H2 & H3). split; [by rewrite Hfa|].
    intros g. destruct (decide (g = f)) as [->|]; [by rewrite H1|by apply H3].
  - apply out_update_None in E. split.
    + unfold rec_faces_out. change (?f <$> ?x :: l) with (f x :: (f <$> l)). constructor; done.
    + intros g. unfold find_out. simpl. destruct (decide (g = f)) as [->|Hne].
      * rewrite N.eqb_refl. fold (find_out f l). rewrite (proj2 (find_out_None f l) E). done.
      * destruct (N.eqb_spec f g); [congruence|done].
Qed.

Lemma delete_in_ok f l : NoDup (rec_faces_in l) ->
  NoDup (rec_faces_in (delete_in f l)) /\
  (forall g, find_in g (delete_in f l) = if decide (g = f) then None else find_in g l) /\
  (forall r, r ∈ delete_in f l -> r ∈ l).
Proof.
  induction l as [|x l IH]; intros Hn.
  - simpl. split; [done|]. split; [|done]. intros g. by destruct (decide (g = f)).
  - pose proof Hn as Hn0. unfold rec_faces_in in Hn. change (?f <$> x :: l) with (f x :: (f <$> l)) in Hn.
    apply NoDup_cons in Hn as [Hx Hn]. destruct (IH Hn) as (IH1 & IH2 & IH3).
    simpl. destruct (N.eqb_spec (fr_face (ir_rec x)) f) as [E|E].
    + split; [done|]. split; [|intros; by right]. intros g. unfold find_in. simpl.
      destruct (decide (g = f)) as [->|Hne].
      * apply find_in_None. by rewrite <- E.
      * destruct (N.eqb_spec (fr_face (ir_rec x)) g); [congruence|done].
    + split; [|split].
      * unfold rec_faces_in. change (?f <$> x :: ?l) with (f x :: (f <$> l)). constructor; [|done].
        intros (r & Hr & Hin)%elem_of_list_fmap. apply Hx. cbv beta. rewrite Hr.
        apply (elem_of_list_fmap_1 (fun r => fr_face (ir_rec r))). by apply IH3.
      * intros g. unfold find_in in *. simpl. rewrite IH2. destruct (N.eqb_spec (fr_face (ir_rec x)) g) as [<-|]; [|done].
        by rewrite decide_False.
      * intros r [->|?]%elem_of_cons; [by left|right; auto].
Qed.
Lemma delete_out_ok f l : NoDup (rec_faces_out l) ->
  NoDup (rec_faces_out (delete_out f l)) /\
  (forall g, find_out g (delete_out f l) = if decide (g = f) then None else find_out g l) /\
  (forall r, r ∈ delete_out f l -> r ∈ l).
Proof.
  induction l as [|x l IH]; intros Hn.
  - simpl. split; [done|]. split; [|done]. intros g. by destruct (decide (g = f)).
  - pose proof Hn as Hn0. unfold rec_faces_out in Hn. change (?f <$> x :: l) with (f x :: (f <$> l)) in Hn.
    apply NoDup_cons in Hn as [Hx Hn]. destruct (IH Hn) as (IH1 & IH2 & IH3).
    simpl. destruct (N.eqb_spec (fr_face (or_rec x)) f) as [E|E].
    + split; [done|]. split; [|intros; by right]. intros g. unfold find_out. simpl.
      destruct (decide (g = f)) as [->|Hne].
      * apply find_out_None. by rewrite <- E.
      * destruct (N.eqb_spec (fr_face (or_rec x)) g); [congruence|done].
    + split; [|split].
      * unfold rec_faces_out. change (?f <$> x :: ?l) with (f x :: (f <$> l)). constructor; [|done].
        intros (r & Hr & Hin)%elem_of_list_fmap. apply Hx. cbv beta. rewrite Hr.
        apply (elem_of_list_fmap_1 (fun r => fr_face (or_rec r))). by apply IH3.
      * intros g. unfold find_out in *. simpl. rewrite IH2. destruct (N.eqb_spec (fr_face (or_rec x)) g) as [<-|]; [|done].
        by rewrite decide_False.
      * intros r [->|?]%elem_of_cons; [by left|right; auto].
Qed.
Lemma out_nack_ok f nonce reason l : 
  rec_faces_out (out_nack f nonce reason l) = rec_faces_out l /\
  (forall g, find_out g (out_nack f nonce reason l) =
     if decide (g = f) then
       match find_out f l with
       | Some r => Some (if (nonce =? fr_nonce (or_rec r))%N then OutRecord (or_rec r) (Some reason) else r)
       | None => None
       end
     else find_out g l).
Proof.
  unfold find_out. induction l as [|x l [IH1 IH2]]; simpl.
  - split; [done|]. intros g. by destruct (decide (g = f)).
  - destruct (N.eqb_spec (fr_face (or_rec x)) f) as [E|E].
    + assert (Hx : or_rec (set_incoming_nack nonce reason x).1 = or_rec x) by (unfold set_incoming_nack; by destruct (nonce =? _)%N).
      simpl. rewrite !rec_faces_out_cons, Hx. split; [done|]. intros g. destruct (decide (g = f)) as [->|Hne].
      * rewrite E, N.eqb_refl. unfold set_incoming_nack. by destruct (nonce =? _)%N.
      * destruct (N.eqb_spec (fr_face (or_rec x)) g); [congruence|done].
    + split; [by rewrite !rec_faces_out_cons, IH1|]. intros g. simpl. rewrite IH2. destruct (N.eqb_spec (fr_face (or_rec x)) g) as [<-|]; [|done].
      by rewrite decide_False.
Qed.
