(** What a user of the dead nonce list may rely on. *)
From Verif Require Import Lib Name_Model Dnl_Model.

Section spec.
  Variable make_entry : name -> N -> fingerprint.

  (** a history of operations on a list built with an admissible lifetime *)
  Definition dnl_after (h : list dnl_op) (d : dnl) : Prop :=
    exists lifetime d0, dnl_new lifetime = Some d0 /\ d = dnl_run make_entry d0 h.

  (** operations that put something at the young end *)
  Definition inserts (o : dnl_op) : bool :=
    match o with Adjust => false | _ => true end.
  Definition n_inserts (h : list dnl_op) : nat := length (filter (fun o => inserts o = true) h).

  (** some operation of [h] added a (name, nonce) with this fingerprint *)
  Definition was_added (h : list dnl_op) (x : fingerprint) : Prop :=
    exists n nonce c, Add n nonce c ∈ h /\ make_entry n nonce = x.

  (** the unbounded list: every fingerprint ever added, at the place of its last
      addition, oldest first; marks are never merged *)
  Definition recency_step (l : list fingerprint) (o : dnl_op) : list fingerprint :=
    match o with
    | Add n nonce _ => filter (fun y => y <> make_entry n nonce) l ++ [make_entry n nonce]
    | Mark => l ++ [0%N]
    | Adjust => l
    end.
  Definition recency (h : list dnl_op) : list fingerprint :=
    foldl recency_step [0%N; 0%N; 0%N; 0%N; 0%N] h.

  (** no added pair hashes to the reserved value *)
  Definition hash_avoids_mark (h : list dnl_op) : Prop :=
    forall n nonce c, Add n nonce c ∈ h -> make_entry n nonce <> 0%N.
End spec.

(** the mark counts that were recorded since the previous adjustment *)
Definition all_above (l : list N) : Prop := forall c, c ∈ l -> (5 < c)%N.
Definition all_below (l : list N) : Prop := forall c, c ∈ l -> (c < 5)%N.

Section recorded.
  Variable make_entry : name -> N -> fingerprint.
  (** number of marks (zero entries) present right after each Mark operation
      since the last Adjust; [rh] is the history, newest operation first *)
  Fixpoint recorded (d0 : dnl) (rh : list dnl_op) : list N :=
    match rh with
    | [] | Adjust :: _ => []
    | Mark :: p =>
        N.of_nat (length (filter (fun x => x = 0%N) (queue (dnl_run make_entry d0 (rev (Mark :: p))))))
        :: recorded d0 p
    | Add _ _ _ :: p => recorded d0 p
    end.
End recorded.
