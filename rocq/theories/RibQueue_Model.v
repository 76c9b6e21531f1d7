(** The queue of RIB updates and the FIB commands that are waiting for a response (rib.cpp,
    fib-updater.cpp). *)
From stdpp Require Import gmap.
From Verif Require Import Lib Name_Model Tab_Model Rib_Model.

(** a RIB update that was submitted: its number and the update (rib.hpp:238-245 UpdateQueueItem; the
    callbacks, which report to the manager, are known by the number) *)
Definition job : Type := N * rib_update.
(** a FIB command without a response yet: the update its callbacks were made for, the job they report
    to, whether add-nexthop was sent (remove-nexthop otherwise), and nTimeouts *)
Record command := Cmd { c_job : job; c_upd : fib_update; c_add : bool; c_tries : N }.
(** m_isUpdateInProgress, m_updateBatches, m_batchFaceId, m_updatesForBatchFaceId,
    m_updatesForNonBatchFaceId, m_inheritedRoutes; the commands under way; what was reported so far, in
    order: the job and whether it succeeded; the number of the next job *)
Record queue := Queue {
  q_rib : rib; q_busy : bool; q_queue : list job;
  q_face : N; q_batch : list fib_update; q_other : list fib_update; q_inh : list (bool * name * route);
  q_out : list command; q_log : list (job * bool); q_next : N;
}.
Definition queue_empty : queue := Queue rib_empty false [] 0 [] [] [] [] [] 0.
Definition MAX_NUM_TIMEOUTS : N := 10.   (* fib-updater.cpp:35 *)

(** fib-update.hpp:54-61 operator== *)
Definition fu_eqb (a b : fib_update) : bool :=
  name_eqb (fu_name a) (fu_name b) && (fu_face a =? fu_face b)%N && (fu_cost a =? fu_cost b)%N && Bool.eqb (fu_add a) (fu_add b).
(** std::list::remove *)
Definition fu_remove (u : fib_update) (l : list fib_update) : list fib_update := List.filter (fun x => negb (fu_eqb x u)) l.
(** fib-updater.cpp:173-190 sendUpdates *)
Definition first_try (j : job) (u : fib_update) : command := Cmd j u (fu_add u) 0.
Definition send (j : job) (l : list fib_update) (q : queue) : queue :=
  Queue (q_rib q) (q_busy q) (q_queue q) (q_face q) (q_batch q) (q_other q) (q_inh q) (q_out q ++ map (first_try j) l) (q_log q) (q_next q).
(** rib.cpp:407-449 onFibUpdateSuccess, onFibUpdateFailure without advancing the queue *)
Definition finish_ok (j : job) (q : queue) : option queue :=
  do R := rib_apply (snd j) (q_inh q) (q_rib q) in
  Some (Queue R false (q_queue q) (q_face q) (q_batch q) (q_other q) (q_inh q) (q_out q) (q_log q ++ [(j, true)]) (q_next q)).
Definition finish_failed (j : job) (q : queue) : queue :=
  Queue (q_rib q) false (q_queue q) (q_face q) (q_batch q) (q_other q) (q_inh q) (q_out q) (q_log q ++ [(j, false)]) (q_next q).
(** fib-updater.cpp:45-62 computeAndSendFibUpdates: the state of the updater for a new job *)
Definition begin (j : job) (rest : list job) (q : queue) : option queue :=
  do c := compute (rb_map (q_rib q)) (snd j) in
  Some (Queue (q_rib q) true rest (u_face c) (u_batch c) (u_other c) (u_inh c) (q_out q) (q_log q) (q_next q)).
(** rib.cpp:383-405 sendBatchFromQueue with what it leads to: a job without FIB updates succeeds at
    once and the next one is begun.  The fuel is the length of the queue *)
Fixpoint advance (fuel : nat) (q : queue) : option queue :=
  if q_busy q then Some q
  else
    match q_queue q, fuel with
    | [], _ => Some q
    | _, O => None
    | j :: rest, S fuel' =>
        do q1 := begin j rest q in
        match q_batch q1, q_other q1 with
        | [], [] => do q2 := finish_ok j q1 in advance fuel' q2
        | [], l => Some (send j l q1)
        | l, _ => Some (send j l q1)
        end
    end.
Definition go (q : queue) : option queue := advance (length (q_queue q)) q.
Definition succeed (j : job) (q : queue) : option queue := do q1 := finish_ok j q in go q1.
Definition fail (j : job) (q : queue) : option queue := go (finish_failed j q).
(** fib-updater.cpp:202-214 sendUpdatesForNonBatchFaceId *)
Definition send_other (j : job) (q : queue) : option queue :=
  match q_other q with [] => succeed j q | l => Some (send j l q) end.
Definition set_q_batch (l : list fib_update) (q : queue) : queue :=
  Queue (q_rib q) (q_busy q) (q_queue q) (q_face q) l (q_other q) (q_inh q) (q_out q) (q_log q) (q_next q).
Definition set_q_other (l : list fib_update) (q : queue) : queue :=
  Queue (q_rib q) (q_busy q) (q_queue q) (q_face q) (q_batch q) l (q_inh q) (q_out q) (q_log q) (q_next q).
Definition set_q_out (l : list command) (q : queue) : queue :=
  Queue (q_rib q) (q_busy q) (q_queue q) (q_face q) (q_batch q) (q_other q) (q_inh q) l (q_log q) (q_next q).
Definition other_done (j : job) (u : fib_update) (q : queue) : option queue :=
  let q1 := set_q_other (fu_remove u (q_other q)) q in
  match q_other q1 with [] => succeed j q1 | _ => Some q1 end.

Inductive response := ROk | RTimeout | RFaceGone | ROther.   (* 200; Controller::ERROR_TIMEOUT; 410; other codes *)
(** fib-updater.cpp:245-300 onUpdateSuccess, onUpdateError.  None: an exception that is not caught, or
    a failed assertion *)
Definition on_response (c : command) (r : response) (q : queue) : option queue :=
  match r with
  | ROk =>
      if (fu_face (c_upd c) =? q_face q)%N then
        let q1 := set_q_batch (fu_remove (c_upd c) (q_batch q)) q in
        match q_batch q1 with [] => send_other (c_job c) q1 | _ => Some q1 end
      else other_done (c_job c) (c_upd c) q
  | RTimeout =>
      if (c_tries c <? MAX_NUM_TIMEOUTS)%N
      then Some (set_q_out (q_out q ++ [Cmd (c_job c) (c_upd c) true (c_tries c + 1)]) q)   (* sendAddNextHopUpdate, whatever the action *)
      else None
  | RFaceGone => if (fu_face (c_upd c) =? q_face q)%N then fail (c_job c) q else other_done (c_job c) (c_upd c) q
  | ROther => None
  end.

Inductive qevent :=
| QSubmit (u : rib_update)            (* rib.cpp:328-336 beginApplyUpdate *)
| QRemoveFace (f : N)                 (* rib.cpp:338-346 beginRemoveFace *)
| QRespond (i : nat) (r : response).  (* the response to one of the commands under way *)
(** rib.cpp:371-381 addUpdateToQueue *)
Definition enqueue (u : rib_update) (q : queue) : queue :=
  Queue (q_rib q) (q_busy q) (q_queue q ++ [(q_next q, u)]) (q_face q) (q_batch q) (q_other q) (q_inh q) (q_out q) (q_log q) (q_next q + 1)%N.
Definition q_step (e : qevent) (q : queue) : option queue :=
  match e with
  | QSubmit u => go (enqueue u q)
  | QRemoveFace f => go (fold_left (fun q x => enqueue (RibUpdate RemoveFace (fst x) (snd x)) q) (remove_face_updates f (q_rib q)) q)
  | QRespond i r =>
      match q_out q !! i with
      | Some c => on_response c r (set_q_out (take i (q_out q) ++ drop (S i) (q_out q)) q)
      | None => Some q
      end
  end.
Definition q_run (l : list qevent) : option queue := each_of q_step l queue_empty.
