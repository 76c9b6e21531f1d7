(** Channels and multicast faces that follow from a configuration. *)
From Coq Require Import String Ascii.
From stdpp Require Import gmap strings.
From Verif Require Import Lib Cfg_Model Fs_Model Fs_Spec Fs_Read.
Open Scope string_scope.
Open Scope list_scope.

(** * Wishes, one after the other *)
Section Ensure.
Context {K : Type} `{Countable K}.
Variables (adhoc mark : bool).
Definition fits (k : K) (f : mface) (w : wish K) : bool := bool_decide (wi_key w = k) && (wi_group w =? mf_group f)%N && (wi_scope w =? mf_scope f)%N.
Definition ens (w : wish K) (m : gmap K mface) (nx : N) : gmap K mface * N * option K :=
  match m !! wi_key w with
  | Some f => (m, nx, if (mf_group f =? wi_group w)%N && (mf_scope f =? wi_scope w)%N then Some (wi_key w) else None)
  | None => if wi_can w then (<[wi_key w := MFace (wi_group w) (wi_scope w) adhoc mark nx false]> m, nx + 1, Some (wi_key w))%N else (m, nx, None)
  end.
Fixpoint ens_all (W : list (wish K)) (m : gmap K mface) (nx : N) : gmap K mface * N * list K :=
  match W with
  | [] => (m, nx, [])
  | w :: W' =>
      let '(m1, nx1, r) := ens w m nx in
      let '(m2, nx2, k) := ens_all W' m1 nx1 in
      (m2, nx2, match r with Some x => x :: k | None => k end)
  end.
Lemma ens_all_app W W' m nx :
  ens_all (W ++ W') m nx = let '(m1, nx1, k1) := ens_all W m nx in let '(m2, nx2, k2) := ens_all W' m1 nx1 in (m2, nx2, k1 ++ k2).
Proof.
  revert m nx. induction W as [|w W IH]; intros m nx; [cbn; by destruct (ens_all W' m nx) as [[? ?] ?]|].
  cbn. destruct (ens w m nx) as [[m1 nx1] r]. rewrite IH. destruct (ens_all W m1 nx1) as [[m2 nx2] k]. destruct (ens_all W' m2 nx2) as [[m3 nx3] k']. by destruct r.
Qed.
Lemma ens_all_spec W : forall m nx m' nx' keep,
  ens_all W m nx = (m', nx', keep) ->
  (nx <= nx')%N /\ faces_after false W adhoc mark nx nx' m m' /\
  (forall k, k ∈ keep <-> exists f, m' !! k = Some f /\ existsb (fits k f) W = true).
Proof.
  induction W as [|w W IH]; intros m nx m' nx' keep; cbn [ens_all].
  { intros [= <- <- <-]. split; [lia|]. split.
    - intros k. cbn. by destruct (m !! k).
    - intros k. split; [by intros ?%elem_of_nil|]. intros (f & _ & Hf). done. }
  destruct (ens w m nx) as [[m1 nx1] r] eqn:Ew. destruct (ens_all W m1 nx1) as [[m2 nx2] k2] eqn:Ea. intros [= <- <- <-].
  destruct (IH _ _ _ _ _ Ea) as (L & F & Kp). clear IH Ea.
  unfold ens in Ew. destruct (m !! wi_key w) as [f0|] eqn:E0.
  - injection Ew as <- <- <-. split; [done|]. pose proof (F (wi_key w)) as Fw. rewrite E0 in Fw. cbn in Fw. split.
    + intros k. specialize (F k). destruct (m !! k) as [f|] eqn:Ek; [exact F|]. cbn [List.find].
      destruct (bool_decide (wi_key w = k)) eqn:Eb; [apply bool_decide_eq_true in Eb; congruence|]. exact F.
    + intros k. assert ((exists f, m2 !! k = Some f /\ existsb (fits k f) (w :: W) = true) <-> k ∈ k2 \/ (k = wi_key w /\ (mf_group f0 =? wi_group w)%N && (mf_scope f0 =? wi_scope w)%N = true)) as ->.
      { cbn [existsb]. rewrite Kp. split.
        - intros (f & Hf & He). apply orb_true_iff in He. destruct He as [He|He]; [|left; eauto]. right. unfold fits in He.
          apply andb_true_iff in He as [He Hs]. apply andb_true_iff in He as [Hk Hg]. apply bool_decide_eq_true in Hk. subst k. split; [done|].
          rewrite Fw in Hf. injection Hf as <-. rewrite N.eqb_sym, Hg, N.eqb_sym, Hs. done.
        - intros [(f & Hf & He)|[-> He]]; [exists f; split; [done|]; by rewrite He, orb_true_r|].
          exists f0. split; [done|]. unfold fits. apply andb_true_iff in He as [Hg Hs]. rewrite bool_decide_eq_true_2 by done. rewrite N.eqb_sym, Hg, N.eqb_sym, Hs. done. }
      destruct ((mf_group f0 =? wi_group w)%N && (mf_scope f0 =? wi_scope w)%N).
      * rewrite elem_of_cons. tauto.
      * split; [by left|]. by intros [?|[_ ?]].
  - destruct (wi_can w) eqn:Ec; injection Ew as <- <- <-.
    + set (f0 := MFace (wi_group w) (wi_scope w) adhoc mark nx false) in *. split; [lia|].
      pose proof (F (wi_key w)) as Fw. rewrite lookup_insert in Fw. cbn in Fw. split.
      * intros k. specialize (F k). cbn [List.find]. rewrite Ec. destruct (decide (wi_key w = k)) as [<-|Hn].
        -- rewrite E0. rewrite bool_decide_eq_true_2 by done. cbn [andb]. exists nx. split; [lia|]. exact Fw.
        -- rewrite lookup_insert_ne in F by done. rewrite bool_decide_eq_false_2 by done. cbn [andb]. destruct (m !! k); [exact F|].
           destruct (List.find _ W) as [w'|]; [|exact F]. destruct F as (no & Hno & F). exists no. split; [lia|done].
      * intros k. rewrite elem_of_cons, Kp. cbn [existsb]. split.
        -- intros [->|(f & Hf & He)]; [|exists f; split; [done|]; by rewrite He, orb_true_r].
           exists f0. split; [done|]. unfold fits. rewrite bool_decide_eq_true_2 by done. cbn. by rewrite !N.eqb_refl.
        -- intros (f & Hf & He). apply orb_true_iff in He. destruct He as [He|He]; [|right; eauto]. left. unfold fits in He.
           apply andb_true_iff in He as [He _]. apply andb_true_iff in He as [Hk _]. by apply bool_decide_eq_true in Hk.
    + split; [done|]. split.
      * intros k. specialize (F k). cbn [List.find]. rewrite Ec, andb_false_r. exact F.
      * intros k. rewrite Kp. cbn [existsb]. split.
        -- intros (f & Hf & He). exists f. split; [done|]. by rewrite He, orb_true_r.
        -- intros (f & Hf & He). apply orb_true_iff in He. destruct He as [He|He]; [|eauto].
           unfold fits in He. apply andb_true_iff in He as [He Hs]. apply andb_true_iff in He as [Hk Hg]. apply bool_decide_eq_true in Hk. subst k.
           exists f. split; [done|]. pose proof (F (wi_key w)) as Fw. rewrite E0 in Fw. 
           destruct (List.find _ W) as [w'|] eqn:Ef; [|congruence]. destruct Fw as (no & _ & Fw). rewrite Hf in Fw. injection Fw as ->.
           apply List.find_some in Ef as [Hin Hw]. apply andb_true_iff in Hw as [Hk' _].
           apply existsb_exists. exists w'. split; [done|]. unfold fits. cbn. by rewrite Hk', !N.eqb_refl.
Qed.
Lemma ens_all_numbers W : forall m nx m' nx' keep, ens_all W m nx = (m', nx', keep) -> own_numbers m m'.
Proof.
  induction W as [|w W IH]; intros m nx m' nx' keep; cbn [ens_all].
  { intros [= <- <- <-] k k' f f' H1 _ H2. congruence. }
  destruct (ens w m nx) as [[m1 nx1] r] eqn:Ew. destruct (ens_all W m1 nx1) as [[m2 nx2] k2] eqn:Ea. intros [= <- <- <-].
  destruct (ens_all_spec _ _ _ _ _ _ Ea) as (_ & F & _). specialize (IH _ _ _ _ _ Ea). unfold ens in Ew.
  destruct (m !! wi_key w) as [f0|] eqn:E0; [injection Ew as <- <- <-; exact IH|].
  destruct (wi_can w); injection Ew as <- <- <-; [|exact IH].
  assert (forall k f f', m !! k = None -> k <> wi_key w -> m2 !! k = Some f -> m2 !! wi_key w = Some f' -> mf_no f <> mf_no f') as Hx.
  { intros k f f' Hk Hn Hf Hf'. pose proof (F (wi_key w)) as Fw. rewrite lookup_insert in Fw. cbn in Fw. rewrite Fw in Hf'. injection Hf' as <-.
    specialize (F k). rewrite lookup_insert_ne, Hk in F by done. destruct (List.find _ W) as [w'|]; [|congruence]. destruct F as (no & Hno & F). rewrite F in Hf. injection Hf as <-. cbn. lia. }
  intros k k' f f' H1 H2 H3 H4 Heq. destruct (decide (k = wi_key w)) as [->|Hn]; destruct (decide (k' = wi_key w)) as [->|Hn'].
  - done.
  - by destruct (Hx _ _ _ H2 Hn' H4 H3).
  - by destruct (Hx _ _ _ H1 Hn H3 H4).
  - apply (IH k k' f f'); [by rewrite lookup_insert_ne by done|by rewrite lookup_insert_ne by done|done..].
Qed.
(** closing the faces nobody wished for *)
Definition close_rest (old : gmap K mface) (keep : list K) (m : gmap K mface) : gmap K mface :=
  map_imap (fun k f => match old !! k with Some _ => if decide (k ∈ keep) then Some f else Some (close_mface f) | None => Some f end) m.
Lemma close_rest_spec W m nx m' nx' keep :
  ens_all W m nx = (m', nx', keep) -> faces_after true W adhoc mark nx nx' m (close_rest m keep m').
Proof.
  intros E. destruct (ens_all_spec _ _ _ _ _ _ E) as (_ & F & Kp). intros k. specialize (F k). unfold close_rest. rewrite map_lookup_imap.
  destruct (m !! k) as [f|] eqn:Em.
  - cbn in F. rewrite F. cbn [mbind option_bind]. change (fun w : wish K => bool_decide (wi_key w = k) && (wi_group w =? mf_group f)%N && (wi_scope w =? mf_scope f)%N) with (fits k f). cbn [andb].
    destruct (decide (k ∈ keep)) as [Hk|Hk].
    + apply Kp in Hk as (f' & Hf & He). rewrite F in Hf. injection Hf as <-. by rewrite He.
    + destruct (existsb (fits k f) W) eqn:He; [|done]. exfalso. apply Hk, Kp. eauto.
  - destruct (List.find _ W); [destruct F as (no & Hno & F); exists no; split; [done|]; by rewrite F|]. by rewrite F.
Qed.
Lemma close_rest_numbers W m nx m' nx' keep : ens_all W m nx = (m', nx', keep) -> own_numbers m (close_rest m keep m').
Proof.
  intros E k k' f f' H1 H2. pose proof (ens_all_numbers _ _ _ _ _ _ E k k') as I. unfold close_rest. rewrite !map_lookup_imap, H1, H2.
  destruct (m' !! k), (m' !! k'); cbn; [|done..]. intros [= <-] [= <-]. by apply I.
Qed.
End Ensure.

(** * Channels *)
Lemma listen_spec {K} `{Countable K} want r k (c : chan) (m m' : gmap K chan) ok :
  ch_open c = false -> listen want r k (create k c m) = (m', ok) ->
  (ok = true -> chans_after (fun k' => bool_decide (k' = k)) want c m m') /\
  (ok = false <-> want = true /\ r <> Bound /\ (forall c', m !! k = Some c' -> ch_open c' = false)).
Proof.
  intros Hc. unfold listen, create.
  assert (forall c', chans_after (fun k' => bool_decide (k' = k)) want c m (<[k := c']> m) <->
    c' = match m !! k with Some c0 => Chan (ch_mark c0) (ch_idle c0) (ch_mtu c0) (ch_open c0 || want) | None => Chan (ch_mark c) (ch_idle c) (ch_mtu c) want end) as A.
  { intros c'. split.
    - intros A. specialize (A k). cbn in A. rewrite lookup_insert, bool_decide_eq_true_2 in A by done. destruct (m !! k); by injection A.
    - intros -> k'. destruct (bool_decide (k' = k)) eqn:E; [apply bool_decide_eq_true in E as ->|apply bool_decide_eq_false in E].
      + rewrite lookup_insert. by destruct (m !! k).
      + by rewrite lookup_insert_ne. }
  assert (forall c', m !! k = Some c' -> <[k := c']> m = m) as Ins by (intros; by apply insert_id).
  destruct (m !! k) as [c0|] eqn:E.
  - rewrite E. destruct (want && negb (ch_open c0)) eqn:W.
    + apply andb_true_iff in W as [-> W]. apply negb_true_iff in W. destruct r; intros [= <- <-]; (split; [try done|]).
      * split; [|done]. intros _. split; [done|]. split; [done|]. by intros c' [= <-].
      * split; [|done]. intros _. split; [done|]. split; [done|]. by intros c' [= <-].
      * intros _. apply A. unfold opened. by rewrite orb_true_r.
      * split; [done|]. by intros (_ & ? & _).
    + intros [= <- <-]. split.
      * intros _. rewrite <-(Ins c0 eq_refl) at 2. apply A. destruct c0 as [a b d o]. cbn in *. f_equal. destruct want, o; done.
      * split; [done|]. intros (-> & _ & O). specialize (O c0 eq_refl). rewrite O in W. done.
  - rewrite lookup_insert. rewrite Hc. destruct want; cbn [andb negb].
    + destruct r; intros [= <- <-]; (split; [try done|]).
      * split; [|done]. intros _. split; [done|]. split; [done|]. by intros c'.
      * split; [|done]. intros _. split; [done|]. split; [done|]. by intros c'.
      * intros _. rewrite insert_insert. by apply A.
      * split; [done|]. by intros (_ & ? & _).
    + intros [= <- <-]. split; [|by split; [|intros (? & _)]]. intros _. apply A. destruct c; cbn in *; congruence.
Qed.
Lemma chans_after_two {K} `{Countable K} (k1 k2 : K) want c m m1 m2 :
  k1 <> k2 -> chans_after (fun k' => bool_decide (k' = k1)) want c m m1 -> chans_after (fun k' => bool_decide (k' = k2)) want c m1 m2 ->
  chans_after (fun k' => bool_decide (k' = k1) || bool_decide (k' = k2)) want c m m2.
Proof.
  intros N A B k. specialize (A k). specialize (B k). cbn in A, B. rewrite B.
  destruct (bool_decide (k = k2)) eqn:E2.
  - apply bool_decide_eq_true in E2. subst k. rewrite bool_decide_eq_false_2 in A by done. rewrite orb_true_r, A. done.
  - rewrite orb_false_r. exact A.
Qed.

Set Default Proof Using "Type".
Section Factories.
Context {rules arules : Type}.
Variables (any_netif no_netif : rules) (read_rules : ptree -> option rules) (accepts : rules -> rules -> netif -> bool).
Variables (any_addr no_addr loopback_only : arules) (read_arules : ptree -> option arules).
Variables (make_v4 make_v6 make_ether : string -> option N).
Notation udpf := (@udpf rules).
Notation etherf := (@etherf rules).
Notation tcpf := (@tcpf arules).

(** * UDP *)
Lemma pick_usable v6 n : match pick v6 n with Some a => [a] | None => [] end = usable v6 n.
Proof.
  unfold pick, usable. induction (ni_addrs n) as [|[a b] l IH]; [done|]. cbn [List.find List.filter fst snd].
  destruct (Bool.eqb (ip_v6 a) v6 && b); [done|exact IH].
Qed.
Definition with_faces (s : udpf) m nx wt : udpf := Udpf (u_mark s) (u_mtu s) (u_chans s) (u_conf s) m (u_schemes s) wt nx.
Lemma udp_mface_ens e n a (s : udpf) :
  let '(m, nx, r) := ens (uc_adhoc (u_conf s)) (u_mark s) (udp_wish (u_conf s) (u_chans s) e n a) (u_faces s) (u_next s) in
  udp_mface e n a s = (with_faces s m nx (u_watch s), r).
Proof.
  unfold ens, udp_mface, udp_wish. cbn [wi_key wi_group wi_scope wi_can].
  set (ep := Lep a (if ip_v6 a then uc_gport6 (u_conf s) else uc_gport (u_conf s))).
  destruct (u_faces s !! ep) as [f|] eqn:E; [by destruct s|].
  destruct (u_chans s !! ep) eqn:Ec.
  - rewrite bool_decide_eq_false_2 by done. rewrite andb_false_r. by destruct s.
  - rewrite bool_decide_eq_true_2 by done. rewrite andb_true_r. destruct (en_mcast e n a); by destruct s.
Qed.
Lemma udp_mfaces_ens e n l : forall s : udpf,
  let '(m, nx, k) := ens_all (uc_adhoc (u_conf s)) (u_mark s) (map (udp_wish (u_conf s) (u_chans s) e n) l) (u_faces s) (u_next s) in
  udp_mfaces e n l s = (with_faces s m nx (u_watch s), k).
Proof.
  induction l as [|a l IH]; intros s; [by destruct s|]. cbn [map ens_all udp_mfaces].
  pose proof (udp_mface_ens e n a s) as M. destruct (ens _ _ _ _ _) as [[m nx] r]. rewrite M.
  specialize (IH (with_faces s m nx (u_watch s))). cbn [with_faces u_conf u_mark u_chans u_faces u_next u_watch] in IH.
  destruct (ens_all _ _ _ m nx) as [[m' nx'] k]. by rewrite IH.
Qed.
Lemma udp_netif_ens e n (s : udpf) : exists wt,
  (forall i, i ∈ wt <-> i ∈ u_watch s \/ (watched accepts (u_conf s) n /\ ni_index n = i)) /\
  let '(m, nx, k) := ens_all (uc_adhoc (u_conf s)) (u_mark s) (udp_wishes accepts (u_conf s) (u_chans s) e [n]) (u_faces s) (u_next s) in
  udp_netif accepts e n s = (with_faces s m nx wt, k).
Proof.
  assert (forall b, udp_fit accepts (u_conf s) n = b -> udp_netif accepts e n s =
    if b then match usable false n ++ usable true n with
              | [] => (Udpf (u_mark s) (u_mtu s) (u_chans s) (u_conf s) (u_faces s) (u_schemes s) ({[ ni_index n ]} ∪ u_watch s) (u_next s), [])
              | l => udp_mfaces e n l s end
    else (s, [])) as Eq.
  { intros b <-. unfold udp_netif, udp_fit. rewrite !pick_usable.
    destruct (uc_mcast (u_conf s)), (ni_up n), (ni_loop n), (ni_mcast n), (accepts _ _ n); done. }
  unfold udp_wishes. cbn [flat_map]. rewrite app_nil_r.
  destruct (udp_fit accepts (u_conf s) n) eqn:Ef; rewrite (Eq _ eq_refl).
  - destruct (usable false n ++ usable true n) as [|a l] eqn:El.
    + apply app_eq_nil in El as [E1 E2]. exists ({[ ni_index n ]} ∪ u_watch s). split; [|done].
      intros i. rewrite elem_of_union, elem_of_singleton. unfold watched. split; [intros [->|?]; [right; done|by left]|intros [?|(_ & ->)]; [by right|by left]].
    + exists (u_watch s). split; [|apply (udp_mfaces_ens e n (a :: l) s)].
      intros i. split; [by left|]. intros [?|((_ & E1 & E2) & _)]; [done|]. by rewrite E1, E2 in El.
  - exists (u_watch s). split; [|cbn; by destruct s]. intros i. split; [by left|]. intros [?|((E1 & _) & _)]; [done|]. congruence.
Qed.
Lemma udp_netifs_ens e l : forall s : udpf, exists wt,
  (forall i, i ∈ wt <-> i ∈ u_watch s \/ exists n, n ∈ l /\ watched accepts (u_conf s) n /\ ni_index n = i) /\
  let '(m, nx, k) := ens_all (uc_adhoc (u_conf s)) (u_mark s) (udp_wishes accepts (u_conf s) (u_chans s) e l) (u_faces s) (u_next s) in
  udp_netifs accepts e l s = (with_faces s m nx wt, k).
Proof.
  induction l as [|n l IH]; intros s.
  { exists (u_watch s). split; [|by destruct s]. intros i. split; [by left|]. intros [?|(n & []%elem_of_nil & _)]. done. }
  destruct (udp_netif_ens e n s) as (wt & Hw & N).
  replace (udp_wishes accepts (u_conf s) (u_chans s) e (n :: l)) with (udp_wishes accepts (u_conf s) (u_chans s) e [n] ++ udp_wishes accepts (u_conf s) (u_chans s) e l)
    by (unfold udp_wishes; cbn [flat_map]; by rewrite app_nil_r).
  rewrite ens_all_app. destruct (ens_all _ _ (udp_wishes accepts (u_conf s) (u_chans s) e [n]) _ _) as [[m nx] k].
  destruct (IH (with_faces s m nx wt)) as (wt' & Hw' & N'). cbn [with_faces u_conf u_mark u_chans u_faces u_next u_watch] in Hw', N'.
  exists wt'. split.
  - intros i. rewrite Hw', Hw. split.
    + intros [[?|(? & ?)]|(n' & ? & ? & ?)]; [by left| |]; right; [exists n; split; [left|]; done|exists n'; split; [by right|]; done].
    + intros [?|(n' & [->|?]%elem_of_cons & ? & ?)]; [by left; left|left; right; done|right; eauto].
  - destruct (ens_all _ _ (udp_wishes accepts (u_conf s) (u_chans s) e l) m nx) as [[m' nx'] k']. cbn [udp_netifs]. rewrite N.
    by rewrite N'.
Qed.
Lemma udp_mcast_spec e (s : udpf) :
  let s' := udp_mcast accepts e s in
  u_mark s' = u_mark s /\ u_mtu s' = u_mtu s /\ u_chans s' = u_chans s /\ u_conf s' = u_conf s /\ u_schemes s' = u_schemes s /\
  (u_next s <= u_next s')%N /\
  (forall i, i ∈ u_watch s' <-> i ∈ u_watch s \/ exists n, n ∈ en_netifs e /\ watched accepts (u_conf s) n /\ ni_index n = i) /\
  faces_after true (udp_wishes accepts (u_conf s) (u_chans s) e (en_netifs e)) (uc_adhoc (u_conf s)) (u_mark s) (u_next s) (u_next s') (u_faces s) (u_faces s') /\
  own_numbers (u_faces s) (u_faces s').
Proof.
  cbn zeta. unfold udp_mcast. destruct (udp_netifs_ens e (en_netifs e) s) as (wt & Hw & N).
  destruct (ens_all _ _ _ _ _) as [[m nx] k] eqn:E. rewrite N. cbn.
  destruct (ens_all_spec _ _ _ _ _ _ _ _ E) as (L & _). pose proof (close_rest_spec _ _ _ _ _ _ _ _ E) as C. pose proof (close_rest_numbers _ _ _ _ _ _ _ _ E) as C'. done.
Qed.

(** ** Families *)
Lemma udp_family_spec v6 c e (s s' : udpf) ok :
  udp_family v6 c e s = (s', ok) ->
  u_mark s' = u_mark s /\ u_mtu s' = u_mtu s /\ u_conf s' = u_conf s /\ u_faces s' = u_faces s /\ u_watch s' = u_watch s /\ u_next s' = u_next s /\
  (forall ep, ep <> any_ep v6 (uc_port c) -> u_chans s' !! ep = u_chans s !! ep) /\
  (ok = true ->
    u_schemes s' = (if (if v6 then uc_v6 c else uc_v4 c) then {[ "udp"; if v6 then "udp6" else "udp4" ]} ∪ u_schemes s else u_schemes s) /\
    chans_after (fun ep => (if v6 then uc_v6 c else uc_v4 c) && bool_decide (ep = any_ep v6 (uc_port c))) (uc_listen c) (Chan (u_mark s) (uc_idle c) (u_mtu s) false) (u_chans s) (u_chans s')) /\
  (ok = false <-> udp_stuck c e s v6).
Proof.
  unfold udp_family, udp_stuck. destruct (if v6 then uc_v6 c else uc_v4 c).
  2:{ intros [= <- <-]. do 7 (split; [done|]). split; [done|]. split; [done|]. by intros (? & _). }
  set (ep := any_ep v6 (uc_port c)).
  assert ((exists f, u_chans s !! ep = None /\ u_faces s !! ep = Some f) \/ (u_chans s !! ep <> None \/ u_faces s !! ep = None)) as [(f & E1 & E2)|E].
  { destruct (u_chans s !! ep); [right; by left|]. destruct (u_faces s !! ep); [left; eauto|]. right; by right. }
  { rewrite E1, E2. intros [= <- <-]. do 7 (split; [done|]). split; [done|]. split; [|done]. intros _. split; [done|]. by left. }
  intros H. assert (H' : (let (m, ok0) := listen (uc_listen c) (en_udp e ep) ep (create ep (Chan (u_mark s) (uc_idle c) (u_mtu s) false) (u_chans s)) in
        if ok0 then (Udpf (u_mark s) (u_mtu s) m (u_conf s) (u_faces s) ({[ "udp"; if v6 then "udp6" else "udp4" ]} ∪ u_schemes s) (u_watch s) (u_next s), true)
        else (set_u_chans m s, false)) = (s', ok)).
  { destruct (u_chans s !! ep); [exact H|]. destruct (u_faces s !! ep); [by destruct E as [?|?]|exact H]. }
  clear H. destruct (listen _ _ _ _) as [m o] eqn:L.
  destruct (listen_spec _ _ _ (Chan (u_mark s) (uc_idle c) (u_mtu s) false) _ _ _ eq_refl L) as (L1 & L2).
  assert (forall k, k <> ep -> m !! k = u_chans s !! k) as Other.
  { intros k Hk. clear -L Hk. unfold listen, create in L. destruct (u_chans s !! ep) eqn:E.
    - rewrite E in L. destruct (_ && _); [|by injection L as <- <-]. destruct (en_udp e ep); injection L as <- <-; by rewrite ?lookup_insert_ne.
    - rewrite lookup_insert in L. destruct (_ && _); [|injection L as <- <-; by rewrite lookup_insert_ne]. destruct (en_udp e ep); injection L as <- <-; by rewrite ?lookup_insert_ne. }
  destruct o; injection H' as <- <-; do 6 (split; [done|]); (split; [exact Other|]); split.
  - intros _. split; [done|]. exact (L1 eq_refl).
  - split; [done|]. intros (_ & [(N1 & N2)|S]); [destruct E as [E|E]; [destruct (E N1)|destruct (N2 E)]|]. by apply L2 in S.
  - done.
  - split; [|done]. intros _. split; [done|]. right. by apply L2.
Qed.
Lemma any_ep_ne p : any_ep false p <> any_ep true p.
Proof. done. Qed.
Lemma family_wanted_spec v4 v6 p ep :
  (v4 && bool_decide (ep = any_ep false p)) || (v6 && bool_decide (ep = any_ep true p)) = family_wanted v4 v6 p ep.
Proof.
  unfold family_wanted, any_ep. destruct ep as [[b n sc] q]. cbn.
  destruct (decide (n = 0%N)) as [->|Hn]; [|rewrite (bool_decide_eq_false_2 (n = 0%N)) by done; cbn; rewrite !bool_decide_eq_false_2 by congruence; by rewrite !andb_false_r].
  destruct (decide (sc = 0%N)) as [->|Hs]; [|rewrite (bool_decide_eq_false_2 (sc = 0%N)) by done; cbn; rewrite !bool_decide_eq_false_2 by congruence; by rewrite !andb_false_r].
  destruct (decide (q = p)) as [->|Hq]; [|rewrite (bool_decide_eq_false_2 (q = p)) by done; cbn; rewrite !bool_decide_eq_false_2 by congruence; by rewrite !andb_false_r].
  rewrite !(bool_decide_eq_true_2 _ eq_refl). cbn.
  destruct b; [rewrite (bool_decide_eq_false_2 (Lep _ _ = _)) by congruence|]; rewrite (bool_decide_eq_true_2 _ eq_refl).
  - by rewrite andb_false_r, andb_true_r.
  - rewrite bool_decide_eq_false_2 by congruence. by rewrite andb_false_r, andb_true_r, orb_false_r.
Qed.
Lemma chans_after_families v4 v6 p want c m m1 m2 :
  chans_after (fun ep => v4 && bool_decide (ep = any_ep false p)) want c m m1 ->
  chans_after (fun ep => v6 && bool_decide (ep = any_ep true p)) want c m1 m2 ->
  chans_after (family_wanted v4 v6 p) want c m m2.
Proof.
  intros A B k. rewrite <-family_wanted_spec. specialize (A k). specialize (B k). cbn in A, B. rewrite B.
  destruct (v6 && bool_decide (k = any_ep true p)) eqn:E.
  - apply andb_true_iff in E as [-> E]. apply bool_decide_eq_true in E. subst k.
    rewrite bool_decide_eq_false_2 in A by done. rewrite andb_false_r in A. rewrite A. by rewrite orb_true_r.
  - rewrite orb_false_r. exact A.
Qed.
Notation udp_section := (udp_section any_netif no_netif read_rules make_v4 make_v6).
Notation udp_config := (udp_config any_netif no_netif read_rules accepts make_v4 make_v6).
Lemma udp_config_spec mark o e (s s' : udpf) ok :
  udp_config false mark o e s = (s', ok) ->
  match udp_section o with
  | None => ok = false
  | Some c =>
      (ok = false <-> exists v6, udp_stuck c e s v6) /\
      (ok = true ->
        u_conf s' = c /\ u_mark s' = mark /\ u_mtu s' = uc_mtu c /\
        (forall k, k ∈ u_schemes s' <-> k ∈ u_schemes s \/ (k = "udp" /\ (uc_v4 c || uc_v6 c) = true) \/ (k = "udp4" /\ uc_v4 c = true) \/ (k = "udp6" /\ uc_v6 c = true)) /\
        chans_after (family_wanted (uc_v4 c) (uc_v6 c) (uc_port c)) (uc_listen c) (Chan mark (uc_idle c) (uc_mtu c) false) (u_chans s) (u_chans s') /\
        (u_next s <= u_next s')%N /\
        (forall i, i ∈ u_watch s' <-> i ∈ u_watch s \/ exists n, n ∈ en_netifs e /\ watched accepts c n /\ ni_index n = i) /\
        faces_after true (udp_wishes accepts c (u_chans s') e (en_netifs e)) (uc_adhoc c) mark (u_next s) (u_next s') (u_faces s) (u_faces s') /\
        own_numbers (u_faces s) (u_faces s'))
  end.
Proof.
  unfold Fs_Model.udp_config. destruct (udp_section o) as [c|]; [|by intros [= _ <-]].
  cbn [u_mark u_mtu u_chans u_conf u_faces u_schemes u_watch u_next].
  set (s0 := Udpf mark (uc_mtu c) (u_chans s) (u_conf s) (u_faces s) (u_schemes s) (u_watch s) (u_next s)).
  assert (forall v6, udp_stuck c e s0 v6 <-> udp_stuck c e s v6) as St0 by done.
  destruct (udp_family false c e s0) as [s1 ok1] eqn:E1. apply udp_family_spec in E1 as (M1 & T1 & C1 & F1 & W1 & N1 & O1 & G1 & B1).
  destruct ok1.
  2:{ intros [= <- <-]. split; [|done]. split; [|done]. intros _. exists false. by apply St0, B1. }
  destruct (udp_family true c e s1) as [s2 ok2] eqn:E2. apply udp_family_spec in E2 as (M2 & T2 & C2 & F2 & W2 & N2 & O2 & G2 & B2).
  assert (udp_stuck c e s1 true <-> udp_stuck c e s true) as St1.
  { unfold udp_stuck. by rewrite F1, O1. }
  destruct ok2.
  2:{ intros [= <- <-]. split; [|done]. split; [|done]. intros _. exists true. by apply St1, B2. }
  set (s3 := Udpf (u_mark s2) (u_mtu s2) (u_chans s2) c (u_faces s2) (u_schemes s2) (u_watch s2) (u_next s2)).
  pose proof (udp_mcast_spec e s3) as (D1 & D2 & D3 & D4 & D5 & D6 & D7 & D8 & D9). intros [= <- <-]. split.
  - split; [done|]. intros ([] & S); [apply St1, B2 in S|apply St0, B1 in S]; done.
  - intros _. destruct (G1 eq_refl) as (G1s & G1c). destruct (G2 eq_refl) as (G2s & G2c). cbn in M1, T1, C1, F1, W1, N1.
    assert (u_mark s2 = mark) as Em by congruence. assert (u_mtu s2 = uc_mtu c) as Et by congruence.
    split; [by rewrite D4|]. split; [rewrite D1; exact Em|]. split; [rewrite D2; exact Et|]. split.
    { intros k. rewrite D5. change (u_schemes s3) with (u_schemes s2). rewrite G2s, G1s. change (u_schemes s0) with (u_schemes s).
      clear. destruct (uc_v4 c), (uc_v6 c); cbn; rewrite ?elem_of_union, ?elem_of_singleton; intuition (subst; try discriminate; eauto). }
    split.
    { rewrite D3. change (u_chans s3) with (u_chans s2). eapply chans_after_families; [exact G1c|]. cbn in G1c. rewrite M1, T1 in G2c. exact G2c. }
    split; [cbn in D6; rewrite N2, N1 in D6; exact D6|].
    split; [intros i; rewrite D7; change (u_watch s3) with (u_watch s2); rewrite W2, W1; done|].
    split; [rewrite D3; cbn in D8 |- *; rewrite N2, N1, F2, F1, Em in D8; exact D8|].
    cbn in D9 |- *. rewrite F2, F1 in D9. exact D9.
Qed.

(** * TCP *)
Lemma listen_other {K} `{Countable K} want r k (c : chan) (m m' : gmap K chan) ok k' :
  listen want r k (create k c m) = (m', ok) -> k' <> k -> m' !! k' = m !! k'.
Proof.
  intros L Hk. unfold listen, create in L. destruct (m !! k) eqn:E.
  - rewrite E in L. destruct (_ && _); [|by injection L as <- <-]. destruct r; injection L as <- <-; by rewrite ?lookup_insert_ne.
  - rewrite lookup_insert in L. destruct (_ && _); [|injection L as <- <-; by rewrite lookup_insert_ne]. destruct r; injection L as <- <-; by rewrite ?lookup_insert_ne.
Qed.
Lemma tcp_family_spec v6 c e (s s' : tcpf) ok :
  tcp_family v6 c e s = (s', ok) ->
  t_mark s' = t_mark s /\ t_white s' = t_white s /\ t_black s' = t_black s /\
  (forall ep, ep <> any_ep v6 (tc_port c) -> t_chans s' !! ep = t_chans s !! ep) /\
  (ok = true ->
    t_schemes s' = (if (if v6 then tc_v6 c else tc_v4 c) then {[ if v6 then "tcp6" else "tcp4" ]} ∪ t_schemes s else t_schemes s) /\
    chans_after (fun ep => (if v6 then tc_v6 c else tc_v4 c) && bool_decide (ep = any_ep v6 (tc_port c))) (tc_listen c) (Chan (t_mark s) 0 0 false) (t_chans s) (t_chans s')) /\
  (ok = false <-> tcp_stuck c e s v6).
Proof.
  unfold tcp_family, tcp_stuck. destruct (if v6 then tc_v6 c else tc_v4 c).
  2:{ intros [= <- <-]. do 4 (split; [done|]). split; [done|]. split; [done|]. by intros (? & _). }
  destruct (listen _ _ _ _) as [m o] eqn:L. pose proof (fun k' => listen_other _ _ _ _ _ _ _ k' L) as Other.
  destruct (listen_spec _ _ _ (Chan (t_mark s) 0 0 false) _ _ _ eq_refl L) as (L1 & L2).
  destruct o; intros [= <- <-]; do 3 (split; [done|]); (split; [exact Other|]); split.
  - intros _. split; [done|]. exact (L1 eq_refl).
  - split; [done|]. intros (_ & S). by apply L2 in S.
  - done.
  - split; [|done]. intros _. split; [done|]. by apply L2.
Qed.
Notation tcp_section := (tcp_section any_addr no_addr loopback_only read_arules).
Notation tcp_config := (tcp_config any_addr no_addr loopback_only read_arules).
Lemma tcp_config_spec mark t e (s s' : tcpf) ok :
  tcp_config false mark (Some t) e s = (s', ok) ->
  match tcp_section t with
  | None => ok = false
  | Some c =>
      (ok = false <-> exists v6, tcp_stuck c e s v6) /\
      (ok = true ->
        t_mark s' = mark /\ t_white s' = tc_white c /\ t_black s' = tc_black c /\
        (forall k, k ∈ t_schemes s' <-> k ∈ t_schemes s \/ k = "tcp" \/ (k = "tcp4" /\ tc_v4 c = true) \/ (k = "tcp6" /\ tc_v6 c = true)) /\
        chans_after (family_wanted (tc_v4 c) (tc_v6 c) (tc_port c)) (tc_listen c) (Chan mark 0 0 false) (t_chans s) (t_chans s'))
  end.
Proof.
  cbn [Fs_Model.tcp_config]. destruct (tcp_section t) as [c|]; [|by intros [= _ <-]].
  cbn [t_mark t_chans t_white t_black t_schemes].
  set (s0 := Tcpf mark (t_chans s) (t_white s) (t_black s) ({[ "tcp" ]} ∪ t_schemes s)).
  assert (forall v6, tcp_stuck c e s0 v6 <-> tcp_stuck c e s v6) as St0 by done.
  destruct (tcp_family false c e s0) as [s1 ok1] eqn:E1. apply tcp_family_spec in E1 as (M1 & W1 & B1 & O1 & G1 & K1).
  destruct ok1.
  2:{ intros [= <- <-]. split; [|done]. split; [|done]. intros _. exists false. by apply St0, K1. }
  destruct (tcp_family true c e s1) as [s2 ok2] eqn:E2. apply tcp_family_spec in E2 as (M2 & W2 & B2 & O2 & G2 & K2).
  assert (tcp_stuck c e s1 true <-> tcp_stuck c e s true) as St1 by (unfold tcp_stuck; by rewrite O1).
  destruct ok2.
  2:{ intros [= <- <-]. split; [|done]. split; [|done]. intros _. exists true. by apply St1, K2. }
  intros [= <- <-]. split.
  - split; [done|]. intros ([] & S); [apply St1, K2 in S|apply St0, K1 in S]; done.
  - intros _. destruct (G1 eq_refl) as (G1s & G1c). destruct (G2 eq_refl) as (G2s & G2c). cbn in M1. cbn.
    split; [congruence|]. split; [done|]. split; [done|]. split.
    { intros k. rewrite G2s, G1s. change (t_schemes s0) with ({[ "tcp" ]} ∪ t_schemes s).
      clear. destruct (tc_v4 c), (tc_v6 c); cbn; rewrite ?elem_of_union, ?elem_of_singleton; intuition (subst; try discriminate; eauto). }
    eapply chans_after_families; [exact G1c|]. rewrite M1 in G2c. exact G2c.
Qed.

(** * Ethernet *)
Lemma ether_chan_spec e n (s s' : etherf) ok :
  ether_chan e n s = (s', ok) ->
  let c := e_conf s in
  e_conf s' = c /\ e_faces s' = e_faces s /\ e_schemes s' = e_schemes s /\ e_next s' = e_next s /\
  (ok = false <-> ether_wanted c [n] (ni_name n) = true /\ ether_bad c e (e_chans s) (ni_name n)) /\
  (ok = true ->
    chans_after (ether_wanted c [n]) (ec_listen c) (Chan false (ec_idle c) 0 false) (e_chans s) (e_chans s') /\
    forall k, k ∈ e_active s' <-> k ∈ e_active s \/ (ether_wanted c [n] k = true /\ ether_starts c e (e_chans s) k)).
Proof.
  cbn zeta. set (c := e_conf s). unfold ether_chan. fold c.
  assert (forall k, ether_wanted c [n] k = ec_enabled c && ether_fit n && bool_decide (ni_name n = k)) as Ew.
  { intros k. unfold ether_wanted. cbn [existsb]. rewrite orb_false_r, andb_assoc. f_equal.
    destruct (String.eqb_spec (ni_name n) k) as [E|E]; [by rewrite bool_decide_eq_true_2|by rewrite bool_decide_eq_false_2]. }
  destruct (ec_enabled c && ether_fit n) eqn:Ef.
  2:{ intros H. assert ((s, true) = (s', ok)) as [= <- <-].
      { unfold ether_fit in Ef. destruct (ec_enabled c), (ni_up n), (ni_ether n), (ni_hw n =? 0)%N; try done; exact H. }
      do 4 (split; [done|]). split; [split; [done|]; rewrite Ew; by intros (? & _)|]. intros _. split; [intros k; by rewrite Ew|].
      intros k. rewrite Ew. split; [by left|]. intros [?|(? & _)]; done. }
  intros H.
  assert ((match e_chans s !! ni_name n, en_pcap e (ni_name n) with
    | None, NoHandle => (s, false)
    | o, p =>
        let ch := match o with Some ch => ch | None => Chan false (ec_idle c) 0 false end in
        if ec_listen c && negb (ch_open ch) then
          (set_e_chans (<[ni_name n := opened ch]> (e_chans s)) (match p with Captures => {[ ni_name n ]} ∪ e_active s | _ => e_active s end) s, match p with NoFilter => false | _ => true end)
        else (set_e_chans (<[ni_name n := ch]> (e_chans s)) (e_active s) s, true)
    end) = (s', ok)) as H'.
  { unfold ether_fit in Ef. destruct (ec_enabled c), (ni_up n), (ni_ether n), (ni_hw n =? 0)%N; try done; exact H. }
  clear H. rewrite (Ew (ni_name n)), bool_decide_eq_true_2 by done. cbn [andb].
  set (ch := match e_chans s !! ni_name n with Some ch => ch | None => Chan false (ec_idle c) 0 false end).
  assert (forall b, chans_after (ether_wanted c [n]) b (Chan false (ec_idle c) 0 false) (e_chans s) (<[ni_name n := Chan (ch_mark ch) (ch_idle ch) (ch_mtu ch) (ch_open ch || b)]> (e_chans s))) as CA.
  { intros b k. rewrite Ew. cbn [andb]. destruct (decide (ni_name n = k)) as [<-|Hn].
    - rewrite lookup_insert, bool_decide_eq_true_2 by done. unfold ch. by destruct (e_chans s !! ni_name n).
    - rewrite lookup_insert_ne by done. by rewrite bool_decide_eq_false_2. }
  assert ((e_chans s !! ni_name n = None /\ en_pcap e (ni_name n) = NoHandle) \/
    (~ (e_chans s !! ni_name n = None /\ en_pcap e (ni_name n) = NoHandle) /\
     (if ec_listen c && negb (ch_open ch) then
          (set_e_chans (<[ni_name n := opened ch]> (e_chans s)) (match en_pcap e (ni_name n) with Captures => {[ ni_name n ]} ∪ e_active s | _ => e_active s end) s, match en_pcap e (ni_name n) with NoFilter => false | _ => true end)
        else (set_e_chans (<[ni_name n := ch]> (e_chans s)) (e_active s) s, true)) = (s', ok))) as [(E1 & E2)|(NE & H)].
  { unfold ch. destruct (e_chans s !! ni_name n) as [ch0|]; [right; split; [by intros (? & _)|exact H']|].
    destruct (en_pcap e (ni_name n)); [left; done|right; split; [by intros (_ & ?)|exact H']..]. }
  - rewrite E1, E2 in H'. injection H' as <- <-. do 4 (split; [done|]). split; [|done]. split; [|done]. intros _. split; [done|]. left. done.
  - clear H'. assert ((forall ch', e_chans s !! ni_name n = Some ch' -> ch_open ch' = false) <-> ch_open ch = false) as Op.
    { unfold ch. destruct (e_chans s !! ni_name n) as [ch0|]; [split; [intros O; by apply O|by intros ? ? [= <-]]|done]. }
    destruct (ec_listen c && negb (ch_open ch)) eqn:El.
    + apply andb_true_iff in El as [El Eo]. apply negb_true_iff in Eo. injection H as <- <-. do 4 (split; [done|]). split.
      * unfold ether_bad. rewrite El. destruct (en_pcap e (ni_name n)) eqn:Ep; (split; [first [done | intros _; split; [done|right; split; [done|]; split; [done|]; by apply Op]]|intros (_ & [B1|(_ & ? & _)]); first [done|destruct B1 as [_ ?]; done|rewrite Ep in NE; destruct (NE B1)]]).
      * intros _. split.
        { specialize (CA true). rewrite orb_true_r in CA. rewrite El. exact CA. }
        intros k. rewrite Ew. cbn [andb]. unfold ether_starts. rewrite El. cbn [set_e_chans e_active].
        destruct (en_pcap e (ni_name n)) eqn:Ep; rewrite ?elem_of_union, ?elem_of_singleton;
          (split; [first [intros [->|?]; [right; rewrite bool_decide_eq_true_2 by done; split; [done|]; split; [done|]; split; [done|]; by apply Op|by left]|by left]|]);
          intros [?|(Hk & _ & Hp & _)]; try done; try (by right); apply bool_decide_eq_true in Hk; subst k; first [by left|congruence].
    + injection H as <- <-. do 4 (split; [done|]). assert (ec_listen c = true -> ch_open ch = true) as Eo by (intros L; rewrite L in El; by apply negb_false_iff in El).
      split.
      * split; [done|]. unfold ether_bad. intros (_ & [?|(L & _ & O)]); [done|]. apply Op in O. rewrite Eo in O by done. done.
      * intros _. split.
        { specialize (CA (ec_listen c)). replace (ch_open ch || ec_listen c) with (ch_open ch) in CA; [by destruct ch|].
          destruct (ec_listen c); [by rewrite Eo|by rewrite orb_false_r]. }
        intros k. cbn [set_e_chans e_active]. split; [by left|]. intros [?|(Hk & L & _ & O)]; [done|]. rewrite Ew in Hk. cbn [andb] in Hk.
        apply bool_decide_eq_true in Hk. subst k. apply Op in O. rewrite Eo in O by done. done.
Qed.
Lemma ether_mface_ens e n (s : etherf) :
  ether_tidy (e_faces s) ->
  let '(m, nx, k) := ens_all (ec_adhoc (e_conf s)) false (ether_wishes accepts (e_conf s) e [n]) (e_faces s) (e_next s) in
  ether_tidy m /\
  exists r, ether_mface accepts e n s = (Etherf (e_conf s) (e_chans s) (e_active s) m (e_schemes s) nx, r) /\ k = match r with Some x => [x] | None => [] end.
Proof.
  intros T. unfold ether_wishes. cbn [flat_map]. rewrite app_nil_r.
  destruct (ec_mcast (e_conf s) && ether_fit n && ni_mcast n && accepts (ec_white (e_conf s)) (ec_black (e_conf s)) n) eqn:Ef.
  2:{ cbn. split; [done|]. exists None. split; [|done]. unfold ether_mface, ether_fit in *.
      destruct (ec_mcast (e_conf s)), (ni_up n), (ni_ether n), (ni_hw n =? 0)%N, (ni_mcast n), (accepts _ _ n); try done; by destruct s. }
  assert (ether_mface accepts e n s = let key := (ni_name n, ec_group (e_conf s)) in
    match e_faces s !! key with
    | Some _ => (s, Some key)
    | None =>
        if en_mcast_ether e n then
          (Etherf (e_conf s) (e_chans s) (e_active s) (<[key := MFace (ec_group (e_conf s)) 0 (ec_adhoc (e_conf s)) false (e_next s) false]> (e_faces s)) (e_schemes s) (e_next s + 1), Some key)
        else (s, None)
    end) as ->.
  { unfold ether_mface, ether_fit in *. destruct (ec_mcast (e_conf s)), (ni_up n), (ni_ether n), (ni_hw n =? 0)%N, (ni_mcast n), (accepts _ _ n); done. }
  cbn zeta. cbn [ens_all]. unfold ens. cbn [wi_key wi_group wi_scope wi_can].
  destruct (e_faces s !! (ni_name n, ec_group (e_conf s))) as [f|] eqn:E.
  - destruct (T _ _ E) as (Tg & Ts). cbn in Tg. rewrite Tg, Ts, !N.eqb_refl. cbn [andb]. split; [done|]. eexists. split; [by destruct s|done].
  - destruct (en_mcast_ether e n); cbn.
    + split; [|eexists; split; [reflexivity|done]]. intros key f. destruct (decide ((ni_name n, ec_group (e_conf s)) = key)) as [<-|Hn].
      * rewrite lookup_insert. by intros [= <-].
      * rewrite lookup_insert_ne by done. apply T.
    + split; [done|]. exists None. split; [by destruct s|done].
Qed.
Lemma ether_netifs_spec e l : forall (s s' : etherf) keep ok,
  ether_tidy (e_faces s) -> ether_netifs accepts e l s = (s', keep, ok) ->
  let c := e_conf s in
  (ok = false <-> exists k, ether_wanted c l k = true /\ ether_bad c e (e_chans s) k) /\
  (ok = true ->
    e_conf s' = c /\ e_schemes s' = e_schemes s /\ ether_tidy (e_faces s') /\
    ens_all (ec_adhoc c) false (ether_wishes accepts c e l) (e_faces s) (e_next s) = (e_faces s', e_next s', keep) /\
    chans_after (ether_wanted c l) (ec_listen c) (Chan false (ec_idle c) 0 false) (e_chans s) (e_chans s') /\
    forall k, k ∈ e_active s' <-> k ∈ e_active s \/ (ether_wanted c l k = true /\ ether_starts c e (e_chans s) k)).
Proof.
  induction l as [|n l IH]; intros s s' keep ok T.
  { intros [= <- <- <-]. cbn zeta. assert (forall k, ether_wanted (e_conf s) [] k = false) as Ew by (intros k; apply andb_false_r).
    split; [split; [done|]; intros (k & W & _); by rewrite Ew in W|].
    intros _. do 2 (split; [done|]). split; [done|]. split; [done|]. split; [intros k; by rewrite Ew|].
    intros k. split; [by left|]. intros [?|(W & _)]; [done|]. by rewrite Ew in W. }
  cbn [ether_netifs]. cbn zeta. set (c := e_conf s).
  assert (forall k, ether_wanted c (n :: l) k = ether_wanted c [n] k || ether_wanted c l k) as Ew.
  { intros k. unfold ether_wanted. cbn [existsb]. rewrite orb_false_r. by destruct (ec_enabled c). }
  assert (forall k, ether_wanted c [n] k = true -> k = ni_name n) as En.
  { intros k Hk. unfold ether_wanted in Hk. apply andb_true_iff in Hk as [_ Hk]. cbn in Hk. rewrite orb_false_r in Hk. apply andb_true_iff in Hk as [_ Hk]. symmetry. by apply String.eqb_eq. }
  destruct (ether_chan e n s) as [s1 ok1] eqn:E1. apply ether_chan_spec in E1 as (C1 & F1 & S1 & N1 & B1 & G1). fold c in C1, B1, G1.
  destruct ok1.
  2:{ intros [= <- <- <-]. split; [|done]. split; [|done]. intros _. destruct (proj1 B1 eq_refl) as (W & B). exists (ni_name n). split; [by rewrite Ew, W|done]. }
  destruct (G1 eq_refl) as (G1c & G1a). clear G1.
  pose proof (ether_mface_ens e n s1) as M. rewrite F1 in M. specialize (M T). rewrite C1, N1 in M.
  destruct (ens_all (ec_adhoc c) false (ether_wishes accepts c e [n]) (e_faces s) (e_next s)) as [[m nx] k1] eqn:Ens.
  destruct M as (Tm & r & M & Kr). rewrite M.
  set (s2 := Etherf c (e_chans s1) (e_active s1) m (e_schemes s1) nx).
  destruct (ether_netifs accepts e l s2) as [[s3 k3] ok3] eqn:E3. intros [= <- <- <-].
  specialize (IH _ _ _ _ (Tm : ether_tidy (e_faces s2)) E3). cbn zeta in IH. change (e_conf s2) with c in IH. change (e_chans s2) with (e_chans s1) in IH.
  destruct IH as (IHb & IHg).
  (* the channel of [n] does not matter for the others *)
  assert (forall k, ether_wanted c (n :: l) k = true /\ ether_bad c e (e_chans s) k <-> ether_wanted c l k = true /\ ether_bad c e (e_chans s1) k) as Bad.
  { intros k. rewrite Ew. specialize (G1c k). destruct (ether_wanted c [n] k) eqn:Wk.
    - pose proof (En _ Wk) as ->. assert (~ ether_bad c e (e_chans s) (ni_name n)) as NB by (intros B; assert (true = false) by (apply B1; done); done).
      split; [by intros (_ & ?)|]. intros (_ & B). exfalso. destruct B as [(B & _)|(L & _ & B)].
      + rewrite G1c in B. by destruct (e_chans s !! ni_name n).
      + rewrite L in G1c. destruct (e_chans s !! ni_name n) as [c0|]; specialize (B _ G1c); cbn in B; by rewrite ?orb_true_r in B.
    - cbn [orb]. unfold ether_bad. by rewrite G1c. }
  split.
  { rewrite IHb. split; intros (k & Hk); exists k; by apply Bad. }
  intros ->. destruct (IHg eq_refl) as (C3 & S3 & T3 & En3 & CA3 & A3). cbn [s2 e_schemes e_faces e_next e_active] in *.
  split; [done|]. split; [by rewrite S3|]. split; [done|]. split; [|split].
  - replace (ether_wishes accepts c e (n :: l)) with (ether_wishes accepts c e [n] ++ ether_wishes accepts c e l) by (unfold ether_wishes; cbn [flat_map]; by rewrite app_nil_r).
    rewrite ens_all_app, Ens, En3. subst k1. by destruct r.
  - intros k. rewrite CA3, Ew. specialize (G1c k). rewrite G1c. destruct (ether_wanted c [n] k), (ether_wanted c l k); cbn [orb]; try done.
    destruct (e_chans s !! k) as [c0|]; cbn; do 2 f_equal; [destruct (ch_open c0), (ec_listen c)|destruct (ec_listen c)]; done.
  - intros k. rewrite A3, G1a, Ew. specialize (G1c k). unfold ether_starts. split.
    + intros [[?|(W & St)]|(W & L & P & O)]; [by left|right; by rewrite W|]. right. rewrite W, orb_true_r. split; [done|]. split; [done|]. split; [done|].
      intros ch Hch. rewrite Hch in G1c. destruct (ether_wanted c [n] k); [specialize (O _ G1c); cbn in O; by apply orb_false_iff in O as [? _]|]. by apply O.
    + intros [?|(W & L & P & O)]; [by left; left|]. apply orb_true_iff in W. destruct (ether_wanted c [n] k) eqn:Wk; [left; right; done|].
      right. split; [by destruct W|]. split; [done|]. split; [done|]. intros ch. rewrite G1c. apply O.
Qed.
Notation ether_section := (ether_section any_netif no_netif read_rules make_ether).
Notation ether_config := (ether_config any_netif no_netif read_rules accepts make_ether).
Lemma ether_config_spec o e (s s' : etherf) ok :
  ether_tidy (e_faces s) -> ether_config false o e s = (s', ok) ->
  match ether_section o with
  | None => ok = false
  | Some c =>
      (ok = false <-> exists k, ether_wanted c (en_netifs e) k = true /\ ether_bad c e (e_chans s) k) /\
      (ok = true ->
        e_conf s' = c /\ ether_tidy (e_faces s') /\
        (forall k, k ∈ e_schemes s' <-> (k ∈ e_schemes s /\ k <> "ether") \/ (k = "ether" /\ ec_enabled c = true)) /\
        chans_after (ether_wanted c (en_netifs e)) (ec_listen c) (Chan false (ec_idle c) 0 false) (e_chans s) (e_chans s') /\
        (forall k, k ∈ e_active s' <-> k ∈ e_active s \/ (ether_wanted c (en_netifs e) k = true /\ ether_starts c e (e_chans s) k)) /\
        (e_next s <= e_next s')%N /\
        faces_after true (ether_wishes accepts c e (en_netifs e)) (ec_adhoc c) false (e_next s) (e_next s') (e_faces s) (e_faces s') /\
        own_numbers (e_faces s) (e_faces s'))
  end.
Proof.
  intros T. unfold Fs_Model.ether_config. destruct (ether_section o) as [c|]; [|by intros [= _ <-]].
  unfold ether_apply. cbn [e_conf e_chans e_active e_faces e_schemes e_next].
  set (s0 := Etherf c _ _ _ _ _). destruct (ether_netifs accepts e (en_netifs e) s0) as [[s1 keep] ok1] eqn:E.
  pose proof (ether_netifs_spec _ _ _ _ _ _ (T : ether_tidy (e_faces s0)) E) as (B & G). change (e_conf s0) with c in B, G. change (e_chans s0) with (e_chans s) in B, G.
  destruct ok1; intros [= <- <-]; (split; [exact B|]); [|done]. intros _. destruct (G eq_refl) as (G1 & G2 & G3 & G4 & G5 & G6). cbn [s0 e_faces e_next e_active e_schemes] in *.
  split; [done|]. split.
  { intros key f. rewrite map_lookup_imap. destruct (e_faces s1 !! key) as [f1|] eqn:E1; [|done]. cbn. specialize (G3 _ _ E1).
    destruct (e_faces s !! key); [destruct (decide (key ∈ keep))|]; intros [= <-]; done. }
  split.
  { intros k. rewrite G2. destruct (ec_enabled c).
    - rewrite elem_of_union, elem_of_singleton. destruct (decide (k = "ether")) as [Ek|Ek]; [split; [intros _; by right|intros _; by left]|].
      split; [intros [?|?]; [done|by left]|intros [[? _]|[? _]]; [by right|done]].
    - rewrite elem_of_difference, elem_of_singleton. split; [by left|]. intros [?|[_ ?]]; done. }
  split; [exact G5|]. split; [exact G6|]. split; [apply (ens_all_spec _ _ _ _ _ _ _ _ G4)|]. split; [apply (close_rest_spec _ _ _ _ _ _ _ _ G4)|apply (close_rest_numbers _ _ _ _ _ _ _ _ G4)].
Qed.

(** * WebSocket *)
Lemma ws_family_spec v6 c e (s s' : wsf) ok :
  ws_family v6 c e s = (s', ok) ->
  (forall ep, ep <> any_ep v6 (wc_port c) -> w_chans s' !! ep = w_chans s !! ep) /\
  (ok = true -> chans_after (fun ep => (if v6 then wc_v6 c else wc_v4 c) && bool_decide (ep = any_ep v6 (wc_port c))) true (Chan false 0 0 false) (w_chans s) (w_chans s')) /\
  (ok = false <-> ws_stuck c e s v6).
Proof.
  unfold ws_family, ws_stuck. destruct (if v6 then wc_v6 c else wc_v4 c).
  2:{ intros [= <- <-]. split; [done|]. split; [done|]. split; [done|]. by intros (? & _). }
  destruct (listen _ _ _ _) as [m o] eqn:L. pose proof (fun k' => listen_other _ _ _ _ _ _ _ k' L) as Other.
  destruct (listen_spec _ _ _ (Chan false 0 0 false) _ _ _ eq_refl L) as (L1 & L2).
  intros [= <- <-]. split; [exact Other|]. split; [exact L1|]. rewrite L2. split.
  - intros (_ & R & O). split; [done|]. split; [|done]. by destruct (en_ws e _).
  - intros (_ & R & O). split; [done|]. split; [|done]. by destruct (en_ws e _).
Qed.
Lemma ws_config_spec o e (s s' : wsf) ok :
  ws_config false o e s = (s', ok) ->
  match ws_section o with
  | None => ok = false
  | Some c =>
      (ok = false <-> wc_listen c = true /\ exists v6, ws_stuck c e s v6) /\
      (ok = true -> chans_after (fun ep => wc_listen c && family_wanted (wc_v4 c) (wc_v6 c) (wc_port c) ep) true (Chan false 0 0 false) (w_chans s) (w_chans s'))
  end.
Proof.
  unfold ws_config. destruct (ws_section o) as [c|]; [|by intros [= _ <-]].
  destruct (wc_listen c); cbn [negb andb]; [|intros [= <- <-]; split; [split; [done|]; by intros (? & _)|done]].
  destruct (ws_family false c e s) as [s1 ok1] eqn:E1. apply ws_family_spec in E1 as (O1 & G1 & K1).
  destruct ok1.
  2:{ intros [= <- <-]. split; [|done]. split; [|done]. intros _. split; [done|]. exists false. by apply K1. }
  intros E2. apply ws_family_spec in E2 as (O2 & G2 & K2).
  assert (ws_stuck c e s1 true <-> ws_stuck c e s true) as St1 by (unfold ws_stuck; by rewrite O1). split.
  - rewrite K2, St1. split; [intros S; split; [done|]; by exists true|]. intros (_ & [] & S); [done|]. apply K1 in S. done.
  - intros ->. eapply chans_after_families; [exact (G1 eq_refl)|exact (G2 eq_refl)].
Qed.

(** * Unix sockets *)
Variable normal : string -> option string.
Notation unix_config := (unix_config normal).
Lemma unix_config_spec mark t e (s s' : unixf) ok :
  unix_config false mark (Some t) e s = (s', ok) ->
  match unix_section t with
  | None => ok = false
  | Some path =>
      match normal path with
      | None => ok = false
      | Some p =>
          (ok = false <-> unix_stuck e s p) /\
          (ok = true ->
             x_mark s' = mark /\
             chans_after (fun k => bool_decide (k = p)) true (Chan mark 0 0 false) (x_chans s) (x_chans s') /\
             (unix_open s p -> x_removed s' = x_removed s) /\
             (~ unix_open s p -> x_removed s' = match en_file e p with Stale => p :: x_removed s | _ => x_removed s end))
      end
  end.
Proof.
  cbn [Fs_Model.unix_config]. destruct (unix_section t) as [path|]; [|by intros [= _ <-]].
  destruct (normal path) as [p|]; [|by intros [= _ <-]]. cbn [x_mark x_chans x_removed].
  set (ch0 := Chan mark 0 0 false).
  assert (create p ch0 (x_chans s) !! p = Some (match x_chans s !! p with Some c => c | None => ch0 end)) as Ec.
  { unfold create. destruct (x_chans s !! p) as [c|] eqn:E; [done|]. by rewrite lookup_insert. }
  assert (forall k, k <> p -> create p ch0 (x_chans s) !! k = x_chans s !! k) as Eo.
  { intros k Hk. unfold create. destruct (x_chans s !! p); [done|]. by rewrite lookup_insert_ne. }
  rewrite Ec. destruct (ch_open _) eqn:Eop.
  { assert (unix_open s p) as U. { destruct (x_chans s !! p) as [c|] eqn:E; [|done]. exists c. done. }
    intros [= <- <-]. split; [split; [done|]; by intros (? & _)|]. intros _. cbn. split; [done|]. split; [|split; [done|by intros []]].
    intros k. destruct (decide (k = p)) as [->|Hk].
    - rewrite bool_decide_eq_true_2 by done. rewrite Ec. destruct (x_chans s !! p) as [[]|]; [|done]. cbn in Eop |- *. by rewrite Eop.
    - rewrite bool_decide_eq_false_2 by done. by apply Eo. }
  assert (~ unix_open s p) as U. { intros (c & E & O). rewrite E in Eop. congruence. }
  set (c0 := match x_chans s !! p with Some c => c | None => ch0 end) in *.
  assert (forall l, chans_after (fun k => bool_decide (k = p)) true ch0 (x_chans s) (x_chans (Unixf mark (<[p:=opened c0]> (create p ch0 (x_chans s))) l))) as CA.
  { intros l k. cbn [x_chans]. destruct (decide (k = p)) as [->|Hk].
    - rewrite bool_decide_eq_true_2 by done. rewrite lookup_insert. unfold opened, c0. destruct (x_chans s !! p) as [[]|]; cbn; [by rewrite orb_true_r|done].
    - rewrite bool_decide_eq_false_2 by done. rewrite lookup_insert_ne by done. by apply Eo. }
  unfold unix_listen. cbn [x_mark x_chans x_removed]. unfold unix_stuck.
  destruct (en_mkdir e p) eqn:E1; [|intros [= <- <-]; split; [|done]; split; [intros _; split; [done|by left]|done]].
  destruct (en_file e p) eqn:E2;
    try (intros [= <- <-]; split; [|done]; split; [intros _; split; [done|right; first [by left|by right; left]]|done]);
    (destruct (en_unix e p) eqn:E3; [intros [= <- <-]; split; [|done]; split; [intros _; split; [done|do 3 right; by left]|done]..|]);
    intros [= <- <-];
    (split; [destruct (en_chmod e p); split; intros X; [done|destruct X as (_ & [|[|[|[]]]]); done|split; [done|by do 4 right]|done]
            |intros _; split; [done|]; split; [apply CA|]; split; [intros ?; contradiction|done]]).
Qed.
(** a file is removed only when it is a socket nobody answers on *)
Lemma unix_config_removed dry mark o e (s s' : unixf) ok :
  unix_config dry mark o e s = (s', ok) ->
  x_removed s' = x_removed s \/
  exists p, x_removed s' = p :: x_removed s /\ en_file e p = Stale /\ ~ unix_open s p /\ exists t path, o = Some t /\ unix_wants t path /\ normal path = Some p.
Proof.
  unfold Fs_Model.unix_config. destruct o as [t|]; [|by intros [= <- _]; left]. pose proof (unix_section_spec t) as S.
  destruct (unix_section t) as [path|]; [|by intros [= <- _]; left]. destruct S as (_ & S).
  destruct dry; [by intros [= <- _]; left|]. destruct (normal path) as [p|] eqn:En; [|by intros [= <- _]; left]. cbn [x_mark x_chans x_removed].
  destruct (create _ _ _ !! p) as [c|] eqn:Ec; [|by intros [= <- _]; left]. destruct (ch_open c) eqn:Eo; [by intros [= <- _]; left|].
  unfold unix_listen. cbn [x_mark x_chans x_removed]. destruct (en_mkdir e p); [|by intros [= <- _]; left].
  destruct (en_file e p) eqn:Ef; try (by intros [= <- _]; left); try (destruct (en_unix e p); by intros [= <- _]; left).
  intros E. right. exists p. split; [by destruct (en_unix e p); injection E as <- _|]. split; [done|]. split; [|eauto 6].
  intros (c' & E' & O). unfold create in Ec. rewrite E' in Ec. rewrite E' in Ec. injection Ec as <-. congruence.
Qed.
End Factories.
