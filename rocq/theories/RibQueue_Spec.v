(** What the queue of RIB updates is expected to do. *)
From stdpp Require Import gmap.
From Verif Require Import Lib Name_Model Rib_Model Rib_Spec RibQueue_Model.

(** what is seen of each event, in order, and the queue in the end *)
Definition watch {A} (see : qevent -> queue -> list A) (l : list qevent) : option (list A * queue) :=
  each_of (fun e wq => match q_step e (snd wq) with Some q' => Some (fst wq ++ see e (snd wq), q') | None => None end) l ([], queue_empty).
(** the updates that are submitted *)
Definition submitted (e : qevent) (q : queue) : list rib_update :=
  match e with
  | QSubmit u => [u]
  | QRemoveFace f => map (fun x => RibUpdate RemoveFace (fst x) (snd x)) (remove_face_updates f (q_rib q))
  | QRespond _ _ => []
  end.
(** the responses: for which job, to which update *)
Definition answer : Type := job * fib_update * response.
Definition answered (e : qevent) (q : queue) : list answer :=
  match e with
  | QRespond i r => match q_out q !! i with Some c => [(c_job c, c_upd c, r)] | None => [] end
  | _ => []
  end.
(** the jobs get the numbers 0, 1, 2... *)
Definition numbered (us : list rib_update) : list job := imap (fun i u => (N.of_nat i, u)) us.
(** the route of a prefix, face and origin after updates were made one after the other *)
Definition route_after (us : list rib_update) (n : name) (f o : N) : option route :=
  fold_left (fun acc u => if bool_decide (n = ru_name u /\ f = r_face (ru_route u) /\ o = r_origin (ru_route u))
                          then match ru_action u with Register => Some (ru_route u) | _ => None end else acc) us None.
(** the updates reported as successful *)
Definition succeeded (log : list (job * bool)) : list rib_update := map (fun x => snd (fst x)) (List.filter snd log).
(** the face of the route *)
Definition job_face (j : job) : N := r_face (ru_route (snd j)).
(** the FIB updates that a job calls for were all answered: those for the face of the job with success,
    those for other faces with success or because the face is gone.  [before] was done before *)
Definition carried_out (before : list rib_update) (j : job) (ans : list answer) : Prop :=
  exists R c,
    (forall n f o, route_at R n f o = route_after before n f o) /\ compute (rb_map R) (snd j) = Some c /\
    forall x, x ∈ u_batch c ++ u_other c -> (j, x, ROk) ∈ ans \/ ((j, x, RFaceGone) ∈ ans /\ fu_face x <> job_face j).
(** the timeouts of the commands for one FIB update of a job *)
Definition is_timeout (j : job) (x : fib_update) (a : answer) : bool :=
  (fst (fst (fst a)) =? fst j)%N && fu_eqb (snd (fst a)) x && match snd a with RTimeout => true | _ => false end.
Definition timeouts (j : job) (x : fib_update) (ans : list answer) : nat := length (List.filter (is_timeout j x) ans).

(** no response that the face of the job is gone comes while another command is under way *)
Definition calm_event (q : queue) (e : qevent) : Prop :=
  match e with
  | QRespond i RFaceGone => forall c, q_out q !! i = Some c -> fu_face (c_upd c) = job_face (c_job c) -> length (q_out q) = 1%nat
  | _ => True
  end.
Definition calm_run (l : list qevent) : Prop := forall l1 e l2 q, l = l1 ++ e :: l2 -> q_run l1 = Some q -> calm_event q e.
