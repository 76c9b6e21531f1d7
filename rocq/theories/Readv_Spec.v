(** What readvertising is expected to do. *)
From stdpp Require Import gmap.
From Verif Require Import Lib Name_Model Rib_Model Readv_Model.

(** the routes of the RIB that the policy readvertises, with what it made of them, after events *)
Definition routes_step (pol : policy) (A : list (rkey * action)) (e : vevent) : list (rkey * action) :=
  match e with
  | VAdd k c => match p_handle pol k c with Some a => A ++ [(k, a)] | None => A end
  | VRemove k => List.filter (fun x => negb (rkey_eqb (fst x) k)) A
  | _ => A
  end.
Definition routes_of (pol : policy) (l : list vevent) : list (rkey * action) := fold_left (routes_step pol) l [].
(** the number of routes that are readvertised as a prefix *)
Definition n_routes (A : list (rkey * action)) (p : name) : nat := length (List.filter (fun x => name_eqb (a_prefix (snd x)) p) A).
(** the last thing the destination saw of a prefix since it became available *)
Definition last_seen (s : list seen) (p : name) : option seen :=
  fold_left (fun acc x => match x with
                          | SeenUp => None
                          | SeenAdvertise q _ _ | SeenWithdraw q => if name_eqb q p then Some x else acc
                          end) s None.
Definition is_advertise (x : option seen) : bool := match x with Some (SeenAdvertise _ _ _) => true | _ => false end.
Definition in_flight (v : rv) (o : vop) (p : name) : Prop := exists c, c ∈ v_out v /\ s_op c = o /\ s_prefix c = p.
Definition quiet (v : rv) (p : name) : Prop := forall o, ~ in_flight v o p.
(** nothing happens to a prefix while a command about it is under way, except that routes come and
    go without making a difference; a route is added once at a time *)
Definition calm_event (pol : policy) (A : list (rkey * action)) (v : rv) (e : vevent) : Prop :=
  match e with
  | VAdd k c => forall a, p_handle pol k c = Some a -> (k ∉ map fst A) /\ (n_routes A (a_prefix a) <> 0%nat \/ quiet v (a_prefix a))
  | VRemove k => forall a, (k, a) ∈ A -> (1 < n_routes A (a_prefix a))%nat \/ quiet v (a_prefix a)
  | VAvail b => b = true \/ forall p, ~ in_flight v Withdraw p
  | VRespond _ _ => True
  | VTimer p => quiet v p
  end.
Definition calm_run (pol : policy) (l : list vevent) : Prop :=
  forall l1 e l2 v, l = l1 ++ e :: l2 -> v_run pol l1 = Some v -> calm_event pol (routes_of pol l1) v e.
(** a prefix is to be advertised again, or withdrawn again, later *)
Definition timed (v : rv) (o : vop) (p : name) : Prop := exists r d, r ∈ v_rrs v /\ rr_prefix r = p /\ rr_timer r = Some (o, d).
(** whether the destination is available after events; it is not at the start *)
Definition up_of (l : list vevent) : bool := fold_left (fun b e => match e with VAvail b' => b' | _ => b end) l false.
(** the signer of the last route that was to be readvertised as a prefix *)
Definition signer_of (pol : policy) (l : list vevent) (p : name) : option N :=
  fold_left (fun acc e => match e with
                          | VAdd k c => match p_handle pol k c with Some a => if name_eqb (a_prefix a) p then Some (a_signer a) else acc | None => acc end
                          | _ => acc
                          end) l None.
(** a route was to be readvertised as a prefix with a cost *)
Definition asked (pol : policy) (l : list vevent) (p : name) (cost : N) : Prop :=
  exists k c a, VAdd k c ∈ l /\ p_handle pol k c = Some a /\ a_prefix a = p /\ a_cost a = cost.
