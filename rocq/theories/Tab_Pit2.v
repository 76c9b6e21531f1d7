From stdpp Require Import gmap.
From Verif Require Import Lib Name_Model Name_Proof Packet_Model Nt_Model Nt_Spec Nt_Tree Tree_Model Tree_Proof Tab_Model Tab_Spec Tab_At Tab_Fib Tab_Pit.

Definition ms_ns (ms : Z) : Z := (ms * 1000000)%Z.
Lemma ns_cap l : (0 <= l)%Z -> ns_of_ms (Z.min l TEN_DAYS) = ms_ns (Z.min l TEN_DAYS).
Proof.
  intros H. unfold ns_of_ms, wrap64, ms_ns, NS_PER_MS, TEN_DAYS. rewrite Z.mod_small; lia.
Qed.

Definition in_ok (t : Z) (k : pit_key) (r : in_record) : Prop :=
  key_of (ir_interest r) = k /\ fr_nonce (ir_rec r) = i_nonce (ir_interest r) /\
  fr_expiry (ir_rec r) = (fr_renewed (ir_rec r) + ms_ns (Z.min (i_lifetime (ir_interest r)) TEN_DAYS))%Z /\
  (fr_renewed (ir_rec r) <= t)%Z.
Definition out_ok (t : Z) (r : out_record) : Prop :=
  (fr_renewed (or_rec r) <= t)%Z /\ (fr_renewed (or_rec r) <= fr_expiry (or_rec r))%Z /\
  (fr_expiry (or_rec r) <= fr_renewed (or_rec r) + ms_ns TEN_DAYS)%Z.
Record pe_ok (t : Z) (pe : pit_entry) : Prop := {
  pk_in : NoDup (rec_faces_in (pe_in pe));
  pk_out : NoDup (rec_faces_out (pe_out pe));
  pk_in_ok : forall r, r ∈ pe_in pe -> in_ok t (pe_key pe) r;
  pk_out_ok : forall r, r ∈ pe_out pe -> out_ok t r;
}.

Definition pview (g : name -> list pit_entry) (k : pit_key) : option pit_entry :=
  key_find k (g (pit_nte (pk_name k))).
Record pit_inv (t : Z) (g : name -> list pit_entry) (c : N) : Prop := {
  pi_nte : forall n pe, pe ∈ g n -> pit_nte (pk_name (pe_key pe)) = n;
  pi_nodup : forall n, NoDup (pe_key <$> g n);
  pi_ok : forall n pe, pe ∈ g n -> pe_ok t pe;
  pi_count : counter_ok c (pview g);
}.
Definition pit_ok (T : tables) : Prop := pit_inv (now T) (fun n => e_pit (att T n)) (pit_n T).

Lemma pit_at_pview T k : pit_at T k = pview (fun n => e_pit (att T n)) k.
Proof. apply pit_at_att. Qed.

Lemma pit_inv_ext t g g' c : (forall n, g' n = g n) -> pit_inv t g c -> pit_inv t g' c.
Proof.
  intros H [H1 H2 H3 H4]. split.
  - intros n pe. rewrite H. apply H1.
  - intros n. rewrite H. apply H2.
  - intros n pe. rewrite H. apply H3.
  - eapply counter_ext; [|exact H4]. intros k. unfold pview. by rewrite H.
Qed.

Lemma pview_Some t g c k pe : pit_inv t g c -> pview g k = Some pe <-> (exists n, pe ∈ g n) /\ pe_key pe = k.
Proof.
  intros H. unfold pview. rewrite key_find_Some by apply H. split.
  - intros [? ?]. split; [eauto|done].
  - intros [[n Hn] Hk]. split; [|done]. assert (n = pit_nte (pk_name k)) as <-; [|done].
    rewrite <- Hk. symmetry. by eapply pi_nte.
Qed.

Definition only_pit_at (n : name) (l : list pit_entry) (T T' : tables) : Prop :=
  (forall k, att T' k = if decide (k = n) then set_pit l (att T n) else att T k) /\
  fib_n T' = fib_n T /\ sc_n T' = sc_n T /\ meas_n T' = meas_n T /\ now T' = now T.
Lemma only_pit_frame n l T T' : only_pit_at n l T T' ->
  (forall m, e_pit (att T' m) = if decide (m = n) then l else e_pit (att T m)) /\
  same_fib T T' /\ same_meas T T' /\ same_sc T T' /\ now T' = now T.
Proof.
  intros (H & H1 & H2 & H3 & H4). unfold same_fib, same_meas, same_sc.
  split; [intros m; rewrite H; by destruct (decide (m = n))|].
  split; [split; [|done]; intros k; rewrite !fib_at_att, H; destruct (decide (_ = n)) as [->|]; done|].
  split; [split; [|done]; intros k; rewrite !meas_at_att, H; destruct (decide (_ = n)) as [->|]; done|].
  split; [|done]. split; [|done]. intros k; rewrite !sc_at_att, H; destruct (decide (_ = n)) as [->|]; done.
Qed.

(** replacing the list at one name tree entry *)
Lemma pit_inv_set t g g' c c' n l : pit_inv t g c ->
  (forall m, g' m = if decide (m = n) then l else g m) ->
  (forall pe, pe ∈ l -> pit_nte (pk_name (pe_key pe)) = n /\ pe_ok t pe) -> NoDup (pe_key <$> l) ->
  counter_ok c' (pview g') -> pit_inv t g' c'.
Proof.
  intros H Hg Hl Hn Hc. split.
  - intros m pe. rewrite Hg. destruct (decide (m = n)) as [->|]; [by intros [? _]%Hl|by apply H].
  - intros m. rewrite Hg. destruct (decide (m = n)) as [->|]; [done|apply H].
  - intros m pe. rewrite Hg. destruct (decide (m = n)) as [->|]; [by intros [_ ?]%Hl|by apply H].
  - done.
Qed.

(** * findOrInsert *)
Lemma pit_nte_prefix n : pit_nte n `prefix_of` n.
Proof.
  unfold pit_nte. apply take_prefix_iff. rewrite take_length.
  assert (nte_depth n <= length n) by (unfold nte_depth; lia). split; [f_equal; lia|lia].
Qed.
Lemma pit_nte_length n : length (pit_nte n) = nte_depth n.
Proof. unfold pit_nte. rewrite take_length. unfold nte_depth. lia. Qed.

Lemma can_match_ok e i : pit_nte (pk_name (pe_key e)) = pit_nte (i_name i) ->
  can_match e i (nte_depth (i_name i)) = Some (keyb (key_of i) (pe_key e)).
Proof.
  intros H. unfold can_match, keyb, pe_key, key_of in *. simpl in *.
  set (m := i_name (pe_interest e)) in *. set (n := i_name i) in *.
  assert (Hm : take (nte_depth n) m = take (nte_depth n) n).
  { change (take (nte_depth n) n) with (pit_nte n). rewrite <- H.
    pose proof (pit_nte_prefix m) as [Hp _]%take_prefix_iff. rewrite H in Hp at 1 2. rewrite pit_nte_length in Hp. by rewrite H. }
  rewrite Hm, name_eqb_refl. f_equal. f_equal; [f_equal; [|by destruct (i_cbp (pe_interest e)), (i_cbp i)]|by destruct (i_mbf (pe_interest e)), (i_mbf i)].
  assert (Hiff : drop (nte_depth n) m = drop (nte_depth n) n <-> n = m).
  { split; [|by intros ->]. intros Hd. transitivity (take (nte_depth n) n ++ drop (nte_depth n) n); [by rewrite take_drop|]. rewrite <- Hd, <- Hm. apply take_drop. }
  apply Bool.eq_iff_eq_true. by rewrite !name_eqb_eq.
Qed.
Lemma pit_find_if_ok i l : (forall pe, pe ∈ l -> pit_nte (pk_name (pe_key pe)) = pit_nte (i_name i)) ->
  pit_find_if i (nte_depth (i_name i)) l = Some (key_find (key_of i) l).
Proof.
  unfold key_find. induction l as [|x l IH]; intros H; simpl; [done|].
  rewrite can_match_ok by (apply H; by left). destruct (keyb (key_of i) (pe_key x)); [done|].
  apply IH. intros pe Hp. apply H. by right.
Qed.

Lemma pit_insert_ok i T : tree_ok T -> pit_ok T ->
  exists T' l, let pe := default (new_pit_entry i) (pit_at T (key_of i)) in
    pit_insert i T = Some (T', pe, match pit_at T (key_of i) with None => true | Some _ => false end) /\
    tree_ok T' /\ pit_ok T' /\ only_pit_at (pit_nte (i_name i)) l T T' /\
    (forall k, pit_at T' k = if decide (k = key_of i) then Some pe else pit_at T k) /\
    pit_n T' = match pit_at T (key_of i) with None => inc64 (pit_n T) | Some _ => pit_n T end.
Proof.
  intros Ht Hok. unfold pit_insert. set (n := pit_nte (i_name i)).
  destruct (lookup_nte_ok n T Ht) as (T1 & -> & Ht1 & (C1 & C2 & C3 & C4 & C5) & Ha & Hp & _).
  { unfold n. rewrite pit_nte_length. unfold nte_depth, MAX_DEPTH. lia. }
  destruct Hp as [e He]. assert (Hp : present T1 n) by by exists e. rewrite He.
  assert (He' : att T n = e) by (rewrite <- Ha; unfold att; by rewrite He).
  rewrite pit_find_if_ok.
  2: { intros pe Hpe. fold n. apply (pi_nte _ _ _ Hok). by rewrite He'. }
  assert (Hview : pit_at T (key_of i) = key_find (key_of i) (e_pit e)).
  { rewrite pit_at_pview. unfold pview. simpl. fold n. by rewrite He'. }
  rewrite Hview. destruct (key_find (key_of i) (e_pit e)) as [pe|] eqn:Ef; cbn [default].
  - exists T1, (e_pit e).
    assert (Hof : only_pit_at n (e_pit e) T T1).
    { split; [|done]. intros k. rewrite Ha. destruct (decide (k = n)) as [->|]; [|done]. rewrite He'. by destruct e. }
    split; [done|]. split; [done|]. split.
    + unfold pit_ok. rewrite C2, C5. eapply pit_inv_ext; [|exact Hok]. intros m. simpl. by rewrite Ha.
    + split; [done|]. split; [|done]. intros k. rewrite !pit_at_att, Ha, <- pit_at_att.
      destruct (decide (k = key_of i)) as [->|]; [done|]. done.
  - set (T2 := set_pit_n (inc64 (pit_n T1)) (upd n (set_pit (e_pit e ++ [new_pit_entry i])) T1)).
    exists T2, (e_pit e ++ [new_pit_entry i]).
    assert (Hof : only_pit_at n (e_pit e ++ [new_pit_entry i]) T T2).
    { split; [|done]. intros k. unfold T2. change (att (set_pit_n ?c ?X) k) with (att X k). rewrite upd_att by done.
      by rewrite !Ha. }
    split; [done|]. split; [by eapply tree_ok_tr, upd_tree_ok|]. 
    pose proof (only_pit_frame _ _ _ _ Hof) as [Hv _]. pose proof (proj1 (key_find_None _ _) Ef) as Hnew.
    assert (Hnd : NoDup (pe_key <$> e_pit e ++ [new_pit_entry i])).
    { rewrite fmap_app. apply NoDup_app. split; [rewrite <- He'; apply (pi_nodup _ _ _ Hok)|]. split; [|apply NoDup_singleton].
      intros k (pe & -> & Hpe)%elem_of_list_fmap Hk. apply elem_of_list_singleton in Hk. by apply (Hnew pe). }
    assert (Hview2 : forall k, pit_at T2 k = if decide (k = key_of i) then Some (new_pit_entry i) else pit_at T k).
    { intros k. rewrite !pit_at_pview. unfold pview. rewrite Hv. destruct (decide (pit_nte (pk_name k) = n)) as [E|E].
      - rewrite E, He'. destruct (decide (k = key_of i)) as [->|Hne].
        + apply key_find_Some; [done|]. split; [|done]. apply elem_of_app. right. by left.
        + destruct (key_find k (e_pit e)) as [pe|] eqn:Ek.
          * apply key_find_Some in Ek as [? ?]; [|rewrite <- He'; apply (pi_nodup _ _ _ Hok)]. apply key_find_Some; [done|]. split; [|done]. apply elem_of_app. by left.
          * apply key_find_None. intros pe [Hpe|Hpe]%elem_of_app; [by apply (proj1 (key_find_None _ _) Ek)|].
            apply elem_of_list_singleton in Hpe as ->. by intros <-.
      - rewrite decide_False; [done|]. intros ->. by apply E. }
    split; [|split; [done|split; [done|by unfold T2; simpl; rewrite C2]]].
    unfold pit_ok. replace (now T2) with (now T) by (symmetry; apply Hof). eapply (pit_inv_set _ _ _ _ _ n _ Hok Hv); [| done|].
    + intros pe [Hpe|Hpe]%elem_of_app.
      * split; [apply (pi_nte _ _ _ Hok); by rewrite He'|]. apply (pi_ok _ _ _ Hok n). by rewrite He'.
      * apply elem_of_list_singleton in Hpe as ->. split; [done|]. split; simpl; [constructor|constructor| |]; intros r Hr; by apply elem_of_nil in Hr.
    + change (pit_n T2) with (inc64 (pit_n T1)). rewrite C2.
      apply (counter_add (fun k => pit_at T k) _ _ (key_of i)).
      * rewrite Hview. by intros [].
      * intros k. rewrite <- pit_at_pview, Hview2. destruct (decide (k = key_of i)) as [->|]; [|tauto]. split; eauto.
      * eapply counter_ext; [|apply Hok]. intros k. by rewrite pit_at_pview.
Qed.

Lemma pit_find_ok i T r : tree_ok T -> pit_ok T -> pit_find i T = Some r -> r = pit_at T (key_of i).
Proof.
  intros Ht Hok. unfold pit_find. rewrite pit_at_att. unfold att. simpl.
  destruct (tr T !! pit_nte (i_name i)) as [e|] eqn:He; simpl; [|by intros [= <-]].
  rewrite pit_find_if_ok.
  - fold (key_find (key_of i) (e_pit e)). destruct (key_find (key_of i) (e_pit e)); [by intros [= <-]|].
    destruct (t_is_empty _ _ _); [done|]. by intros [= <-].
  - intros pe Hpe. apply (pi_nte _ _ _ Hok). unfold att. by rewrite He.
Qed.
(** find fails exactly when it meets an empty name tree entry *)
Lemma pit_find_None i T : tree_ok T -> pit_ok T ->
  pit_find i T = None <-> t_is_empty has_tables (pit_nte (i_name i)) (tr T) = true.
Proof.
  intros Ht Hok. unfold pit_find, t_is_empty.
  destruct (tr T !! pit_nte (i_name i)) as [e|] eqn:He; simpl; [|done].
  rewrite pit_find_if_ok.
  - destruct (key_find (key_of i) (e_pit e)) as [pe|] eqn:Ef.
    + split; [done|]. intros [H _]%andb_prop. apply negb_true_iff, has_tables_empty in H as ->. done.
    + destruct (negb (has_tables e) && negb (t_has_children _ _)); done.
  - intros pe Hpe. apply (pi_nte _ _ _ Hok). unfold att. by rewrite He.
Qed.

(** * erase *)
Lemma pit_erase_ok k T : tree_ok T -> pit_ok T -> is_Some (pit_at T k) ->
  exists T' l, pit_erase k T = Some T' /\ tree_ok T' /\ pit_ok T' /\ only_pit_at (pit_nte (pk_name k)) l T T' /\
    (forall k', pit_at T' k' = if decide (k' = k) then None else pit_at T k') /\ pit_n T' = dec64 (pit_n T).
Proof.
  intros Ht Hok Hs. pose proof (pit_at_present _ _ Hs) as [e He]. destruct Hs as [pe Hpe]. unfold pit_erase.
  set (n := pit_nte (pk_name k)) in *. assert (Hp : present T n) by by exists e. rewrite He.
  assert (He' : att T n = e) by (unfold att; by rewrite He).
  assert (Hnd : NoDup (pe_key <$> e_pit e)) by (rewrite <- He'; apply (pi_nodup _ _ _ Hok)).
  rewrite pit_at_att in Hpe. fold n in Hpe. rewrite He' in Hpe.
  destruct (erase_pit_entry_ok k (e_pit e) pe Hnd Hpe) as (l & -> & Hperm).
  apply key_find_Some in Hpe as [Hin Hk]; [|done].
  set (T1 := upd n (set_pit l) T). destruct (erase_nte_ok n T1) as (Ht2 & (C1 & C2 & C3 & C4 & C5) & Ha); [by apply upd_tree_ok|by apply upd_present|].
  set (T2 := set_pit_n (dec64 (pit_n (erase_nte n T1))) (erase_nte n T1)). exists T2, l.
  assert (Hof : only_pit_at n l T T2).
  { split; [|done]. intros k'. unfold T2. change (att (set_pit_n ?c ?X) k') with (att X k'). rewrite Ha. unfold T1. by rewrite upd_att. }
  split; [done|]. split; [by eapply tree_ok_tr, Ht2|]. pose proof (only_pit_frame _ _ _ _ Hof) as [Hv _].
  assert (Hnd1 : NoDup (pe_key <$> pe :: l)) by by rewrite <- Hperm.
  change (pe_key <$> pe :: l) with (pe_key pe :: (pe_key <$> l)) in Hnd1. apply NoDup_cons in Hnd1 as [Hpel Hndl].
  assert (Hview2 : forall k', pit_at T2 k' = if decide (k' = k) then None else pit_at T k').
  { intros k'. rewrite !pit_at_pview. unfold pview. rewrite Hv. destruct (decide (pit_nte (pk_name k') = n)) as [E|E].
    - rewrite E, He'. destruct (decide (k' = k)) as [->|Hne].
      + apply key_find_None. intros pe' Hpe' Hk'. apply Hpel. rewrite Hk, <- Hk'. by apply elem_of_list_fmap_1.
      + destruct (key_find k' (e_pit e)) as [pe'|] eqn:Ek.
        * apply key_find_Some in Ek as [Hx ?]; [|done]. apply key_find_Some; [done|]. split; [|done].
          rewrite Hperm in Hx. apply elem_of_cons in Hx as [->|?]; [congruence|done].
        * apply key_find_None. intros pe' Hpe'. apply (proj1 (key_find_None _ _) Ek). rewrite Hperm. by right.
    - rewrite decide_False; [done|]. intros ->. by apply E. }
  split; [|split; [done|split; [done|]]].
  - unfold pit_ok. replace (now T2) with (now T) by (symmetry; apply Hof). eapply (pit_inv_set _ _ _ _ _ n _ Hok Hv); [| done|].
    + intros pe' Hpe'. split; [apply (pi_nte _ _ _ Hok)|apply (pi_ok _ _ _ Hok n)]; rewrite He', Hperm; by right.
    + change (pit_n T2) with (dec64 (pit_n T)).
      apply (counter_del (fun k => pit_at T k) _ _ k).
      * rewrite pit_at_att. fold n. rewrite He'. exists pe. by apply key_find_Some.
      * intros k'. rewrite <- pit_at_pview, Hview2. destruct (decide (k' = k)) as [->|]; [|tauto]. split; [by intros []|by intros []].
      * eapply counter_ext; [|apply Hok]. intros k'. by rewrite pit_at_pview.
  - done.
Qed.

(** * writing to an entry *)
Lemma map_key_find k f l k' : (forall pe, pe_key pe = k -> pe_key (f pe) = k) ->
  key_find k' (map (fun pe => if keyb k (pe_key pe) then f pe else pe) l) =
  if decide (k' = k) then f <$> key_find k l else key_find k' l.
Proof.
  intros Hf. unfold key_find. induction l as [|x l IH]; simpl; [by destruct (decide (k' = k))|].
  destruct (keyb k (pe_key x)) eqn:E.
  - apply keyb_eq in E. rewrite (Hf x) by done. destruct (decide (k' = k)) as [->|Hne].
    + by rewrite keyb_refl.
    + rewrite (proj2 (keyb_neq k' k)) by done. rewrite <- E, (proj2 (keyb_neq k' k)) by done. done.
  - destruct (decide (k' = k)) as [->|Hne]; [by rewrite E|]. destruct (keyb k' (pe_key x)); [done|]. done.
Qed.

Lemma pit_upd_ok k f T : tree_ok T -> pit_ok T -> is_Some (pit_at T k) ->
  (forall pe, pe_key pe = k -> pe_key (f pe) = k) ->
  (forall pe, pit_at T k = Some pe -> pe_ok (now T) pe -> pe_ok (now T) (f pe)) ->
  exists l, tree_ok (pit_upd k f T) /\ pit_ok (pit_upd k f T) /\ only_pit_at (pit_nte (pk_name k)) l T (pit_upd k f T) /\
    (forall k', pit_at (pit_upd k f T) k' = if decide (k' = k) then f <$> pit_at T k else pit_at T k') /\
    pit_n (pit_upd k f T) = pit_n T.
Proof.
  intros Ht Hok Hs Hkey Hpe. pose proof (pit_at_present _ _ Hs) as Hp. unfold pit_upd.
  set (n := pit_nte (pk_name k)) in *. 
  set (h := map (fun pe => if keyb k (pe_key pe) then f pe else pe)).
  set (T1 := upd n (fun e => set_pit (h (e_pit e)) e) T). exists (h (e_pit (att T n))).
  assert (Hof : only_pit_at n (h (e_pit (att T n))) T T1).
  { split; [|done]. intros k'. unfold T1. by rewrite upd_att. }
  split; [by apply upd_tree_ok|]. pose proof (only_pit_frame _ _ _ _ Hof) as [Hv _].
  assert (Hview2 : forall k', pit_at T1 k' = if decide (k' = k) then f <$> pit_at T k else pit_at T k').
  { intros k'. rewrite !pit_at_pview. unfold pview. rewrite Hv. fold n. destruct (decide (pit_nte (pk_name k') = n)) as [E|E].
    - rewrite E. unfold h. rewrite map_key_find by done. done.
    - rewrite decide_False; [done|]. intros ->. by apply E. }
  split; [|done].
  unfold pit_ok. eapply (pit_inv_set _ _ _ _ _ n _ Hok Hv).
  - intros pe' Hpe'. unfold h in Hpe'. apply elem_of_list_In, in_map_iff in Hpe' as (pe & Hx & Hin).
    apply elem_of_list_In in Hin. replace (now T1) with (now T) by done.
    pose proof (pi_nte _ _ _ Hok n pe Hin) as Hn. pose proof (pi_ok _ _ _ Hok n pe Hin) as Ho.
    destruct (keyb k (pe_key pe)) eqn:E; subst pe'; [|done]. apply keyb_eq in E. symmetry in E.
    split; [by rewrite Hkey|]. apply Hpe; [|done]. rewrite pit_at_pview. eapply pview_Some; [exact Hok|]. split; [by exists n|done].
  - assert (pe_key <$> h (e_pit (att T n)) = pe_key <$> e_pit (att T n)) as ->; [|apply (pi_nodup _ _ _ Hok)].
    unfold h. generalize (e_pit (att T n)). intros l. induction l as [|x l IH]; [done|]. 
    change (map ?g (x :: l)) with (g x :: map g l). change (pe_key <$> ?y :: ?z) with (pe_key y :: (pe_key <$> z)). f_equal; [|done].
    destruct (keyb k (pe_key x)) eqn:E; [|done]. apply keyb_eq in E. rewrite Hkey; congruence.
  - change (pit_n T1) with (pit_n T). eapply counter_ext; [|apply Hok]. intros k'. rewrite <- !pit_at_pview, Hview2.
    destruct (decide (k' = k)) as [->|]; [|done]. by rewrite fmap_is_Some.
Qed.

(** * findAllDataMatches *)
Lemma matches_prefix i d : matches_data i d = true -> pit_nte (i_name i) `prefix_of` d_name d.
Proof.
  unfold matches_data. intros [H _]%andb_prop. destruct (Nat.eqb_spec (length (i_name i)) (S (length (d_name d)))) as [E|E].
  - destruct (last (i_name i)) as [c|] eqn:El; [|done]. apply andb_prop in H as [Hd Hn]. apply name_eqb_eq in Hn.
    unfold pit_nte, nte_depth, has_digest. rewrite El, Hd, Hn. unfold d_full_name. rewrite app_length. simpl.
    apply take_prefix_iff. rewrite take_length, app_length. simpl.
    rewrite take_app_le by lia. split; [f_equal; lia|lia].
  - destruct (i_cbp i).
    + apply name_prefixb_prefix in H. transitivity (i_name i); [apply pit_nte_prefix|done].
    + apply name_eqb_eq in H. rewrite <- H. apply pit_nte_prefix.
Qed.

Lemma NoDup_concat_map {A B} (f : A -> list B) (l : list A) :
  NoDup l -> (forall a, a ∈ l -> NoDup (f a)) ->
  (forall a a' b, a ∈ l -> a' ∈ l -> b ∈ f a -> b ∈ f a' -> a = a') -> NoDup (concat (map f l)).
Proof.
  induction l as [|x l IH]; intros Hn Hf Hd; simpl; [constructor|]. apply NoDup_cons in Hn as [Hx Hn].
  apply NoDup_app. split; [apply Hf; by left|]. split.
  - intros b Hb Hc. apply elem_of_list_In, in_concat in Hc as (s & Hs & Hbs). apply in_map_iff in Hs as (a & <- & Ha).
    apply elem_of_list_In in Ha, Hbs. apply Hx. rewrite (Hd x a b); [done|by left|by right|done|done].
  - apply IH; [done|intros; apply Hf; by right|]. intros a a' b Ha Ha'. apply Hd; by right.
Qed.

Lemma NoDup_list_filter {A} (P : A -> bool) (l : list A) : NoDup l -> NoDup (List.filter P l).
Proof.
  induction 1 as [|x l Hx Hn IH]; simpl; [constructor|]. destruct (P x); [|done]. constructor; [|done].
  rewrite elem_of_list_In, filter_In, <- elem_of_list_In. tauto.
Qed.
Lemma pit_matches_ok d T : tree_ok T -> pit_ok T ->
  NoDup (pit_all_data_matches d T) /\
  (forall pe, pe ∈ pit_all_data_matches d T <-> pit_at T (pe_key pe) = Some pe /\ matches_data (pe_interest pe) d = true).
Proof.
  intros Ht Hok. unfold pit_all_data_matches.
  destruct (t_all_matches_ok nte_empty has_tables (d_name d) has_pit (tr T) (tk_depth _ Ht)) as [Hs Hm].
  assert (Hatt : forall p e, (p, e) ∈ t_all_matches (d_name d) has_pit (tr T) -> att T p = e).
  { intros p e [H _]%Hm. unfold att. by rewrite H. }
  split.
  - apply NoDup_concat_map.
    + clear Hm Hatt. induction Hs as [|x l Hs IH Hall]; constructor; [|done]. intros Hx.
      rewrite Forall_forall in Hall. specialize (Hall x Hx). simpl in Hall. lia.
    + intros [p e] Hpe. apply NoDup_list_filter. apply (NoDup_fmap_1 pe_key). rewrite <- (Hatt p e Hpe). apply (pi_nodup _ _ _ Hok).
    + intros [p e] [p' e'] b Ha Ha' Hb Hb'. apply elem_of_list_In, filter_In in Hb as [Hb _]. apply elem_of_list_In, filter_In in Hb' as [Hb' _].
      apply elem_of_list_In in Hb, Hb'. rewrite <- (Hatt p e Ha) in Hb. rewrite <- (Hatt p' e' Ha') in Hb'.
      assert (p = p') as <-.
      { rewrite <- (pi_nte _ _ _ Hok p b Hb). by apply (pi_nte _ _ _ Hok). }
      f_equal. rewrite <- (Hatt p e Ha). by apply Hatt.
  - intros pe. rewrite pit_at_pview, (pview_Some _ _ _ _ _ Hok). rewrite elem_of_list_In, in_concat. split.
    + intros (s & Hs' & Hpe). apply in_map_iff in Hs' as ([p e] & <- & Hin). apply elem_of_list_In in Hin.
      apply filter_In in Hpe as [Hpe Hmatch]. apply elem_of_list_In in Hpe. split; [|done]. split; [|done].
      exists p. by rewrite (Hatt p e Hin).
    + intros [[[n Hn] _] Hmatch]. pose proof (pi_nte _ _ _ Hok n pe Hn) as Hnte.
      exists (List.filter (fun pe => matches_data (pe_interest pe) d) (e_pit (att T n))). split.
      * apply in_map_iff. exists (n, att T n). split; [done|]. apply elem_of_list_In, Hm.
        assert (Hpres : present T n) by (apply att_present; intros E; rewrite E in Hn; by apply elem_of_nil in Hn).
        destruct Hpres as [e He]. unfold att in *. rewrite He in *. simpl in *. split; [done|]. split.
        -- unfold has_pit. destruct (e_pit e); [by apply elem_of_nil in Hn|done].
        -- rewrite <- Hnte. by apply matches_prefix.
      * apply filter_In. split; [by apply elem_of_list_In|done].
Qed.
