(** How each primitive changes what hangs at each name *)
From stdpp Require Import gmap.
From Verif Require Import Lib Name_Model Name_Proof Packet_Model Nt_Model Nt_Spec Nt_Tree Tree_Model Tree_Proof Tab_Model Tab_Spec.

Definition att (T : tables) (n : name) : nte := default nte_empty (tr T !! n).
Definition present (T : tables) (n : name) : Prop := is_Some (tr T !! n).

Record tree_ok (T : tables) : Prop := {
  tk_closed : closed (tr T);
  tk_depth : forall n, present T n -> length n <= 32;
}.

Lemma tree_ok_tr T T' : tr T' = tr T -> tree_ok T -> tree_ok T'.
Proof. intros E [C D]. split; [by rewrite E|]. intros n. unfold present. rewrite E. apply D. Qed.

Lemma has_tables_empty e : has_tables e = false -> e = nte_empty.
Proof. destruct e as [[] [] [] []]; done. Qed.
Lemma has_tables_nempty e : e <> nte_empty -> has_tables e = true.
Proof. intros H. destruct (has_tables e) eqn:E; [done|]. by apply has_tables_empty in E. Qed.

Lemma att_present T n : att T n <> nte_empty -> present T n.
Proof. unfold att, present. destruct (tr T !! n); [done|]. by intros []. Qed.

Lemma fib_at_att T n : fib_at T n = e_fib (att T n).
Proof. unfold fib_find, att. by destruct (tr T !! n). Qed.
Lemma meas_at_att T n : meas_at T n = e_meas (att T n).
Proof. unfold meas_at, att. by destruct (tr T !! n). Qed.
Lemma sc_at_att T n : sc_at T n = e_sc (att T n).
Proof. unfold sc_get, att. by destruct (tr T !! n). Qed.
Lemma pit_at_att T k : pit_at T k = List.find (fun pe => keyb k (pe_key pe)) (e_pit (att T (pit_nte (pk_name k)))).
Proof. unfold pit_get, att. by destruct (tr T !! pit_nte (pk_name k)). Qed.

Lemma fib_at_present T n : is_Some (fib_at T n) -> present T n.
Proof. intros [x H]. rewrite fib_at_att in H. apply att_present. intros E. by rewrite E in H. Qed.
Lemma meas_at_present T n : is_Some (meas_at T n) -> present T n.
Proof. intros [x H]. rewrite meas_at_att in H. apply att_present. intros E. by rewrite E in H. Qed.
Lemma sc_at_present T n : is_Some (sc_at T n) -> present T n.
Proof. intros [x H]. rewrite sc_at_att in H. apply att_present. intros E. by rewrite E in H. Qed.
Lemma pit_at_present T k : is_Some (pit_at T k) -> present T (pit_nte (pk_name k)).
Proof. intros [x H]. rewrite pit_at_att in H. apply att_present. intros E. by rewrite E in H. Qed.

(** same counters and clock *)
Definition same_counters (T T' : tables) : Prop :=
  fib_n T' = fib_n T /\ pit_n T' = pit_n T /\ sc_n T' = sc_n T /\ meas_n T' = meas_n T /\ now T' = now T.
Lemma same_counters_refl T : same_counters T T.
Proof. repeat split. Qed.
Lemma set_tr_counters t T : same_counters T (set_tr t T).
Proof. repeat split. Qed.

Lemma lookup_nte_ok n T : tree_ok T -> length n <= 32 ->
  exists T', lookup_nte n T = Some T' /\ tree_ok T' /\ same_counters T T' /\
    (forall k, att T' k = att T k) /\ present T' n /\ (forall k, present T k -> present T' k).
Proof.
  intros [C D] L. unfold lookup_nte.
  destruct (t_lookup_ok nte_empty has_tables n (tr T) L) as (t' & -> & H).
  exists (set_tr t' T). split; [done|]. split; [split|split; [apply set_tr_counters|]].
  - by eapply after_lookup_closed.
  - intros k Hk. unfold present in Hk. simpl in Hk. rewrite H in Hk.
    destruct (tr T !! k) eqn:E; [apply D; unfold present; by rewrite E|].
    case_bool_decide as Hp; [|by destruct Hk]. apply prefix_length in Hp. lia.
  - split; [|split].
    + intros k. unfold att. simpl. rewrite H. destruct (tr T !! k); [done|]. by case_bool_decide.
    + unfold present. simpl. rewrite H. destruct (tr T !! n); [done|]. rewrite bool_decide_eq_true_2; done.
    + intros k [e Hk]. unfold present. simpl. rewrite H, Hk. done.
Qed.
Lemma lookup_nte_none n T : 32 < length n -> lookup_nte n T = None.
Proof. intros L. unfold lookup_nte. by rewrite (t_lookup_none nte_empty has_tables). Qed.

Lemma upd_att n f T k : present T n -> att (upd n f T) k = if decide (k = n) then f (att T n) else att T k.
Proof.
  intros [e He]. unfold att, upd. simpl. destruct (decide (k = n)) as [->|Hne].
  - rewrite lookup_alter, He. done.
  - by rewrite lookup_alter_ne by done.
Qed.
Lemma upd_present n f T k : present (upd n f T) k <-> present T k.
Proof.
  unfold present, upd. simpl. destruct (decide (k = n)) as [->|Hne].
  - rewrite lookup_alter. by rewrite fmap_is_Some.
  - by rewrite lookup_alter_ne by done.
Qed.
Lemma closed_ext (t t' : gmap name nte) : (forall k, is_Some (t' !! k) <-> is_Some (t !! k)) -> closed t -> closed t'.
Proof. intros H C n p Hn Hp. apply H. apply (C n); [by apply H|done]. Qed.
Lemma upd_tree_ok n f T : tree_ok T -> tree_ok (upd n f T).
Proof.
  intros [C D]. split.
  - eapply closed_ext; [|exact C]. apply upd_present.
  - intros k Hk. apply D. exact (proj1 (upd_present n f T k) Hk).
Qed.
Lemma upd_counters n f T : same_counters T (upd n f T).
Proof. apply set_tr_counters. Qed.

Lemma erase_nte_ok n T : tree_ok T -> present T n ->
  tree_ok (erase_nte n T) /\ same_counters T (erase_nte n T) /\ forall k, att (erase_nte n T) k = att T k.
Proof.
  intros [C D] Hn. unfold erase_nte.
  destruct (t_erase_ok nte_empty has_tables n true (tr T) C Hn) as [C' H].
  split; [split; [exact C'|]|split; [apply set_tr_counters|]].
  - intros k [e Hk]. simpl in Hk. apply erase_sub in Hk. apply D. by exists e.
  - intros k. unfold att. simpl. destruct (tr T !! k) as [e|] eqn:Ek; simpl.
    + destruct (has_tables e) eqn:Eh.
      * by rewrite (erase_keeps has_tables n true (tr T) _ k e H Ek Eh).
      * apply has_tables_empty in Eh as ->.
        destruct (t_erase_if_empty has_tables n true (tr T) !! k) as [e'|] eqn:E'; [|done].
        apply erase_sub in E'. simpl. congruence.
    + destruct (t_erase_if_empty has_tables n true (tr T) !! k) as [e'|] eqn:E'; [|done].
      apply erase_sub in E'. congruence.
Qed.

(** counting *)
Lemma counts_ext {K V} (f g : K -> option V) k : (forall x, is_Some (f x) <-> is_Some (g x)) -> counts f k -> counts g k.
Proof. intros H (l & Hn & Hl & Hx). exists l. split; [done|]. split; [done|]. intros x. by rewrite Hx, H. Qed.
Lemma counts_add {K V} (f g : K -> option V) k y : ~ is_Some (f y) ->
  (forall x, is_Some (g x) <-> x = y \/ is_Some (f x)) -> counts f k -> counts g (S k).
Proof.
  intros Hy H (l & Hn & Hl & Hx). exists (y :: l). split; [constructor; [by rewrite Hx|done]|].
  split; [simpl; lia|]. intros x. by rewrite elem_of_cons, Hx, H.
Qed.
Lemma counts_del {K V} `{EqDecision K} (f g : K -> option V) k y : is_Some (f y) ->
  (forall x, is_Some (g x) <-> x <> y /\ is_Some (f x)) -> counts f k -> counts g (k - 1) /\ 0 < k.
Proof.
  intros Hy H (l & Hn & Hl & Hx). apply Hx in Hy. apply elem_of_Permutation in Hy as [l' Hp].
  rewrite Hp in Hn. apply NoDup_cons in Hn as [Hy Hn]. pose proof (Permutation_length Hp) as Hl'. simpl in Hl'.
  split; [|lia]. exists l'. split; [done|]. split; [lia|]. intros x. rewrite H, <- Hx, Hp, elem_of_cons.
  split; [|tauto]. intros Hin. split; [congruence|by right].
Qed.
Lemma counter_ext {K V} (f g : K -> option V) n : (forall x, is_Some (f x) <-> is_Some (g x)) -> counter_ok n f -> counter_ok n g.
Proof. intros H (k & Hc & ->). exists k. split; [by eapply counts_ext|done]. Qed.
Lemma counter_add {K V} (f g : K -> option V) n y : ~ is_Some (f y) ->
  (forall x, is_Some (g x) <-> x = y \/ is_Some (f x)) -> counter_ok n f -> counter_ok (inc64 n) g.
Proof.
  intros Hy H (k & Hc & ->). exists (S k). split; [by eapply counts_add|].
  unfold inc64, U64. rewrite N.add_mod_idemp_l by done. f_equal. lia.
Qed.
Lemma counter_del {K V} `{EqDecision K} (f g : K -> option V) n y : is_Some (f y) ->
  (forall x, is_Some (g x) <-> x <> y /\ is_Some (f x)) -> counter_ok n f -> counter_ok (dec64 n) g.
Proof.
  intros Hy H (k & Hc & ->). destruct (counts_del f g k y) as [Hc' Hk]; [done..|].
  exists (k - 1). split; [done|].
  unfold dec64, U64. rewrite N.add_mod_idemp_l by done.
  replace (N.of_nat k + (2 ^ 64 - 1))%N with (N.of_nat (k - 1) + 1 * 2 ^ 64)%N by lia.
  by rewrite N.mod_add by done.
Qed.
