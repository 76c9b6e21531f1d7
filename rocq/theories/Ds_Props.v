(** C87: hubs from DNS. *)
From Coq Require Import String Ascii.
From stdpp Require Import list strings.
From Verif Require Import Lib Ds_Model.
Open Scope list_scope.
Set Default Proof Using "Type".

(** An answer to a query: header, the question, the first record with its owner, fixed fields and target, and the rest. *)
Definition octets2 (x : N) : list N := [x / 256; x mod 256]%N.
Definition message (id_flags_qd : list N) (ancount : N) (more : list N) (q qt owner ttc : list N) (len prio weight port : N) (target rest : list N) : list N :=
  id_flags_qd ++ octets2 ancount ++ more ++ q ++ qt ++ owner ++ ttc ++ octets2 len ++ octets2 prio ++ octets2 weight ++ octets2 port ++ target ++ rest.
Lemma be16_at pre x post : (x < 65536)%N -> be16 (pre ++ octets2 x ++ post) (length pre) = Some x.
Proof.
  intros _. unfold be16. rewrite (lookup_app_r pre _ (length pre)) by lia. rewrite (lookup_app_r pre _ (S (length pre))) by lia.
  replace (length pre - length pre)%nat with 0%nat by lia. replace (S (length pre) - length pre)%nat with 1%nat by lia.
  change (Some (256 * (x / 256) + x mod 256)%N = Some x). f_equal. symmetry. by apply N.div_mod.
Qed.
Section dns.
Context (skipname : list N -> Z -> nat -> option nat) (expand : list N -> Z -> nat -> option (string * nat)).
(** The hub is that of the first record: its target and port, if its owner is written in two octets, as servers do (a pointer to the question). *)
Theorem C87_record h an more q qt owner ttc len prio weight port target rest size host a b :
  let m := message h an more q qt owner ttc len prio weight port target rest in
  length h = 6%nat -> length more = 4%nat -> length qt = 4%nat -> length owner = 2%nat -> length ttc = 8%nat -> (0 < an < 65536)%N -> (port < 65536)%N -> size <> 0%Z ->
  skipname m size 12 = Some (length q) -> expand m size (16 + length q) = Some (a, length owner) -> expand m size (34 + length q) = Some (host, b) ->
  query_srv skipname expand m size = Some (OHub host port).
Proof using Type*.
  intros m Hh Hm Hq Ho Ht Han Hp Hs Es Ea Eh. unfold query_srv, parse_srv. apply Z.eqb_neq in Hs. rewrite Hs.
  assert (A : be16 m 6 = Some an). { rewrite <- Hh. unfold m, message. apply be16_at. lia. }
  assert (P : be16 m (16 + length q + 12 + 4) = Some port).
  { unfold m, message. rewrite !app_assoc. rewrite <- (app_assoc _ target rest). rewrite <- (app_assoc _ (octets2 port) _).
    match goal with |- be16 (?pre ++ _) _ = _ => replace (16 + length q + 12 + 4)%nat with (length pre) end; [by apply be16_at|]. rewrite !app_length. cbn. lia. }
  rewrite A. destruct an as [|an]; [lia|]. change HFIXEDSZ with 12%nat. rewrite Es. change QFIXEDSZ with 4%nat. replace (12 + length q + 4)%nat with (16 + length q)%nat by lia. rewrite Ea. change RECHDR with 12%nat. rewrite P, Ho.
  replace (16 + length q + 2 + 12 + 4)%nat with (34 + length q)%nat by lia. by rewrite Eh.
Qed.
(** A query that fails, or an answer without records, is an error, whatever is in the buffer, as there are no names beyond the end of a message. *)
Theorem C87_failure buf size : length buf = PACKETSZ -> (forall i, (size <= Z.of_nat i)%Z -> expand buf size i = None) ->
  (size <= 12)%Z \/ be16 buf 6 = Some 0%N -> query_srv skipname expand buf size = Some OError.
Proof using Type*.
  intros Hl Hx H. unfold query_srv. destruct (size =? 0)%Z; [done|]. unfold parse_srv.
  assert (S : is_Some (be16 buf 6)). { unfold be16. destruct (lookup_lt_is_Some_2 buf 6) as [x ->]; [rewrite Hl; unfold PACKETSZ; lia|]. destruct (lookup_lt_is_Some_2 buf 7) as [y ->]; [rewrite Hl; unfold PACKETSZ; lia|]. eauto. }
  destruct S as [an A]. rewrite A in *. destruct an as [|an]; [done|]. destruct H as [H|H]; [|done]. rewrite Hx; [done|]. unfold HFIXEDSZ, QFIXEDSZ. destruct (skipname buf size _); lia.
Qed.
(** Which octets the port is taken from, whatever the answer is: the sixteenth after the beginning of the owner, and the next. *)
Theorem C87_port buf size host port : query_srv skipname expand buf size = Some (OHub host port) ->
  exists i a n b, expand buf size i = Some (a, n) /\ be16 buf (i + 16) = Some port /\ expand buf size (i + n + 16) = Some (host, b) /\ (forall k, skipname buf size 12 = Some k -> i = (16 + k)%nat).
Proof using Type*.
  unfold query_srv, parse_srv. destruct (size =? 0)%Z; [done|]. destruct (be16 buf 6) as [[|an]|]; try done. intros E.
  remember (match skipname buf size HFIXEDSZ with Some n => HFIXEDSZ + n + QFIXEDSZ | None => HFIXEDSZ + QFIXEDSZ - 1 end)%nat as i eqn:Ei.
  destruct (expand buf size i) as [[a n]|] eqn:E1; [|done]. destruct (be16 buf (i + RECHDR + 4)) as [p|] eqn:E2; [|done]. destruct (expand buf size (i + n + HFIXEDSZ + QFIXEDSZ)) as [[h b]|] eqn:E3; [|done]. injection E as -> ->.
  exists i, a, n, b. split; [done|]. unfold RECHDR, HFIXEDSZ, QFIXEDSZ in *. replace (i + 16)%nat with (i + 12 + 4)%nat by lia. replace (i + n + 16)%nat with (i + n + 12 + 4)%nat by lia. split; [done|]. split; [done|]. intros k Ek. rewrite Ek in Ei. lia.
Qed.
(** Nothing is read that is not in the buffer, if the name asked for has at most 255 octets, as DNS wants it. *)
Theorem C87_bounds buf size : length buf = PACKETSZ -> (forall k, skipname buf size 12 = Some k -> (k <= 255)%nat) -> is_Some (query_srv skipname expand buf size).
Proof using Type*.
  intros Hl Hk. unfold query_srv. destruct (size =? 0)%Z; [eauto|]. unfold parse_srv.
  assert (B : forall i, (i < 511)%nat -> is_Some (be16 buf i)).
  { intros i Hi. unfold be16. destruct (lookup_lt_is_Some_2 buf i) as [x ->]; [rewrite Hl; unfold PACKETSZ; lia|]. destruct (lookup_lt_is_Some_2 buf (S i)) as [y ->]; [rewrite Hl; unfold PACKETSZ; lia|]. eauto. }
  destruct (B 6%nat) as [an ->]; [lia|]. destruct an; [eauto|]. change HFIXEDSZ with 12%nat. change QFIXEDSZ with 4%nat. change RECHDR with 12%nat.
  set (i := match skipname buf size 12 with Some _ => _ | None => _ end). assert (Hi : (i <= 271)%nat). { subst i. destruct (skipname buf size 12) as [k|] eqn:E; [specialize (Hk k eq_refl); lia|lia]. }
  destruct (expand buf size i) as [[a n]|]; [|eauto]. destruct (B (i + 12 + 4)%nat) as [q ->]; [lia|]. destruct (expand buf size _) as [[h b]|]; eauto.
Qed.
(** Without that limit, and an answer that ends with the owner of a record: octets are read that are not in the buffer. *)
Theorem C87_bounds_needed buf k a n : length buf = PACKETSZ -> (exists c, be16 buf 6 = Some (N.pos c)) -> skipname buf 512 12 = Some k -> (479 <= k <= 495)%nat -> expand buf 512 (16 + k) = Some (a, n) -> query_srv skipname expand buf 512 = None.
Proof using Type*.
  intros Hl [c A] Es Hk Ex. unfold query_srv. cbn [Z.eqb]. unfold parse_srv. rewrite A. change HFIXEDSZ with 12%nat. rewrite Es. change QFIXEDSZ with 4%nat. replace (12 + k + 4)%nat with (16 + k)%nat by lia. rewrite Ex.
  assert (B : be16 buf (16 + k + RECHDR + 4) = None); [|by rewrite B]. unfold be16, RECHDR. rewrite (lookup_ge_None_2 buf (S (16 + k + 12 + 4))) by (rewrite Hl; unfold PACKETSZ; lia). by destruct (buf !! _).
Qed.
End dns.

(** Names as RFC 1035 writes them (labels, the empty label, pointers), for the examples. *)
Fixpoint rd_name (fuel : nat) (buf : list N) (size : Z) (i : nat) : option (string * nat) :=
  match fuel with
  | 0%nat => None
  | S fuel =>
      if (size <=? Z.of_nat i)%Z then None
      else match buf !! i with
           | None => None
           | Some 0%N => Some (""%string, 1%nat)
           | Some n =>
               if (192 <=? n)%N
               then match buf !! S i with
                    | Some c => match rd_name fuel buf size (N.to_nat (256 * (n - 192) + c)) with Some (s, _) => Some (s, 2%nat) | None => None end
                    | None => None
                    end
               else match rd_name fuel buf size (S i + N.to_nat n) with
                    | Some (s, k) => Some (String.append (String.string_of_list_ascii (map Ascii.ascii_of_N (firstn (N.to_nat n) (skipn (S i) buf)))) (match s with EmptyString => EmptyString | _ => String.append "." s end), (1 + N.to_nat n + k)%nat)
                    | None => None
                    end
           end
  end.
Definition xp := rd_name 600.
Definition sk (buf : list N) (size : Z) (i : nat) : option nat := snd <$> xp buf size i.
(** Asked for "a"; the owner "a" as a pointer to the question or written out; target "hub", priority 10, weight 20, port 6363. *)
Definition answer (owner : list N) : list N := message [0; 1; 129; 128; 0; 1]%N 1 [0; 0; 0; 0]%N [1; 97; 0]%N [0; 33; 0; 1]%N owner [0; 33; 0; 1; 0; 0; 0; 9]%N 11 10 20 6363 [3; 104; 117; 98; 0]%N [].
Definition in_buffer (m : list N) : list N := m ++ repeat 0%N (PACKETSZ - length m).
Definition pointed : list N := answer [192; 12]%N.
Definition written : list N := answer [1; 97; 0]%N.
Example C87_record_ex : query_srv sk xp pointed (Z.of_nat (length pointed)) = Some (OHub "hub" 6363) /\ query_srv sk xp (in_buffer pointed) (Z.of_nat (length pointed)) = Some (OHub "hub" 6363).
Proof. split; vm_compute; reflexivity. Qed.
Example C87_record_hyps : sk pointed 42 12 = Some 3%nat /\ xp pointed 42 19 = Some ("a"%string, 2%nat) /\ xp pointed 42 37 = Some ("hub"%string, 5%nat) /\ pointed = message [0; 1; 129; 128; 0; 1]%N 1 [0; 0; 0; 0]%N [1; 97; 0]%N [0; 33; 0; 1]%N [192; 12]%N [0; 33; 0; 1; 0; 0; 0; 9]%N 11 10 20 6363 [3; 104; 117; 98; 0]%N [].
Proof. repeat split; vm_compute; reflexivity. Qed.
Lemma xp_end buf size i : (size <= Z.of_nat i)%Z -> xp buf size i = None.
Proof. intros H. unfold xp. generalize 600%nat. intros [|f]; [done|]. cbn [rd_name]. apply Z.leb_le in H. by rewrite H. Qed.
(** A query that fails (-1) over a buffer that holds an earlier, good answer. *)
Example C87_failure_ex : query_srv sk xp (in_buffer pointed) (-1) = Some OError.
Proof. apply C87_failure; [vm_compute; reflexivity|intros; by apply xp_end|left; lia]. Qed.
(** A record whose owner is written out: the same host, and a port that is not the one of the record (here it is the weight and half of the port). *)
Theorem C87_owner_refuted : exists p, p <> 6363%N /\ query_srv sk xp (in_buffer written) (Z.of_nat (length written)) = Some (OHub "hub" p).
Proof. exists 5144%N. split; [done|]. vm_compute. reflexivity. Qed.
(** A record that is not a service record at all (type 1) is taken for one, and the first record is taken also if a second one has a better priority. *)
Definition of_type (t : N) : list N := message [0; 1; 129; 128; 0; 1]%N 1 [0; 0; 0; 0]%N [1; 97; 0]%N [0; 33; 0; 1]%N [192; 12]%N [0; t; 0; 1; 0; 0; 0; 9]%N 11 10 20 6363 [3; 104; 117; 98; 0]%N [].
Theorem C87_type_refuted : query_srv sk xp (in_buffer (of_type 1)) 42 = Some (OHub "hub" 6363).
Proof. vm_compute. reflexivity. Qed.
Definition second : list N := [192; 12; 0; 33; 0; 1; 0; 0; 0; 9; 0; 11; 0; 1; 0; 20; 24; 220; 3; 104; 117; 99; 0]%N.
Definition two : list N := message [0; 1; 129; 128; 0; 1]%N 2 [0; 0; 0; 0]%N [1; 97; 0]%N [0; 33; 0; 1]%N [192; 12]%N [0; 33; 0; 1; 0; 0; 0; 9]%N 11 10 20 6363 [3; 104; 117; 98; 0]%N second.
Theorem C87_priority_refuted : query_srv sk xp (in_buffer two) (Z.of_nat (length two)) = Some (OHub "hub" 6363).
Proof. vm_compute. reflexivity. Qed.
Example C87_bounds_ex : length (in_buffer pointed) = PACKETSZ /\ sk (in_buffer pointed) 42 12 = Some 3%nat.
Proof. split; vm_compute; reflexivity. Qed.
(** The limit is needed: a question of long labels that leaves room only for a pointer (the resolver would not send it). *)
Definition lbl (n : nat) : list N := N.of_nat n :: repeat 97%N n.
Definition full : list N := [0; 1; 129; 128; 0; 1; 0; 1; 0; 0; 0; 0]%N ++ lbl 60 ++ lbl 60 ++ lbl 60 ++ lbl 60 ++ lbl 60 ++ lbl 60 ++ lbl 60 ++ lbl 60 ++ lbl 4 ++ [0%N] ++ [0; 33; 0; 1; 192; 12]%N.
Example C87_bounds_needed_ex : length full = PACKETSZ /\ query_srv sk xp full 512 = None.
Proof. split; vm_compute; reflexivity. Qed.
(** Identities are told apart by the names asked for only if their components have no dots. *)
Theorem C87_dots_refuted : srv_domain ["b.a"]%string = srv_domain ["a"; "b"]%string /\ srv_domain ["ndn"; "edu"; "ucla"]%string = "_ndn._udp.ucla.edu.ndn._homehub._autoconf.named-data.net"%string.
Proof. split; vm_compute; reflexivity. Qed.
Print Assumptions C87_record.
Print Assumptions C87_failure.
Print Assumptions C87_port.
Print Assumptions C87_owner_refuted.
Print Assumptions C87_type_refuted.
Print Assumptions C87_priority_refuted.
Print Assumptions C87_bounds.
Print Assumptions C87_bounds_needed.
Print Assumptions C87_dots_refuted.
