(** The RIB manager: commands, prefix announcements and the expiry of routes (mgmt/rib-manager.cpp, rib/route.cpp,
    rib/rib.cpp, rib/rib-entry.cpp), over the queue of RIB updates of RibQueue_Model.v.  Times are in nanoseconds of
    the steady clock.  Not modelled: the registration of the manager's own prefixes (rib-manager.cpp:78-93,174-199) and the
    periodic fetch of the active faces (rib-manager.cpp:455-484); what a fetch leads to is the event [EActive]. *)
From stdpp Require Import gmap.
From Verif Require Import Lib Name_Model Nt_Model Tab_Model Rib_Model RibQueue_Model.

(** the prefix, face and origin of a route *)
Definition rkey : Type := name * N * N.
Definition rkey_of (n : name) (r : route) : rkey := (n, r_face r, r_origin r).
Definition rkey_eqb (a b : rkey) : bool :=
  let '(n, f, o) := a in let '(n', f', o') := b in name_eqb n n' && (f =? f')%N && (o =? o')%N.

(** ndn::PrefixAnnouncement: the announced name, the expiration period (ms) and the validity period (ns of the system
    clock) *)
Record announcement := Announce { pa_name : name; pa_expiration : Z; pa_validity : option (Z * Z) }.
(** the call rib-manager.cpp:154 schedules; [t_id] is the number of the RIB update that was submitted with it *)
Record timer := Timer { t_id : N; t_at : Z; t_name : name; t_route : route }.
(** the queue of RIB updates, the steady clock, the scheduled calls; for a route in the RIB, the number of the update that
    brought it: its m_expirationEvent is the call with that number, if any; for a number, the announcement of the route that
    was submitted, and annExpires; the updates submitted so far *)
Record mgr := Mgr {
  m_q : queue; m_now : Z; m_timers : list timer;
  m_owner : rkey -> option N; m_ann : N -> option (announcement * Z); m_jobs : list rib_update }.
Definition mgr_init : mgr := Mgr queue_empty 0 [] (fun _ => None) (fun _ => None) [].
Definition set_m_q (q : queue) (M : mgr) : mgr := Mgr q (m_now M) (m_timers M) (m_owner M) (m_ann M) (m_jobs M).
Definition set_m_timers (l : list timer) (M : mgr) : mgr := Mgr (m_q M) (m_now M) l (m_owner M) (m_ann M) (m_jobs M).
Definition set_m_owner (k : rkey) (v : option N) (M : mgr) : mgr :=
  Mgr (m_q M) (m_now M) (m_timers M) (fun k' => if rkey_eqb k' k then v else m_owner M k') (m_ann M) (m_jobs M).
Definition set_m_now (t : Z) (M : mgr) : mgr := Mgr (m_q M) t (m_timers M) (m_owner M) (m_ann M) (m_jobs M).

(** route.hpp:63-67 cancelExpirationEvent, of the route in the RIB.  Copies of a route share the event *)
Definition cancel (k : rkey) (M : mgr) : mgr :=
  match m_owner M k with
  | Some i => set_m_timers (List.filter (fun x => negb (t_id x =? i)%N) (m_timers M)) M
  | None => M
  end.
Definition job_key (j : job) : rkey := rkey_of (ru_name (snd j)) (ru_route (snd j)).

(** * RibQueue_Model.v, with the expiration events *)
(** rib.cpp:83-110,151-165, rib-entry.cpp:100-116: the route that is replaced or erased has its event cancelled *)
Definition m_finish_ok (j : job) (M : mgr) : option mgr :=
  do q := finish_ok j (m_q M) in
  let M1 := set_m_q q (cancel (job_key j) M) in
  Some (set_m_owner (job_key j) (match ru_action (snd j) with Register => Some (fst j) | _ => None end) M1).
Definition m_finish_failed (j : job) (M : mgr) : mgr := set_m_q (finish_failed j (m_q M)) M.
(** fib-updater.cpp:142-160: the updates for an unregistration are computed with a copy of the entry from which the route is
    erased *)
Definition m_begin (j : job) (rest : list job) (M : mgr) : option mgr :=
  do q := begin j rest (m_q M) in
  Some (set_m_q q (match ru_action (snd j) with Register => M | _ => cancel (job_key j) M end)).
Fixpoint m_advance (fuel : nat) (M : mgr) : option mgr :=
  if q_busy (m_q M) then Some M
  else
    match q_queue (m_q M), fuel with
    | [], _ => Some M
    | _, O => None
    | j :: rest, S fuel' =>
        do M1 := m_begin j rest M in
        match q_batch (m_q M1), q_other (m_q M1) with
        | [], [] => do M2 := m_finish_ok j M1 in m_advance fuel' M2
        | [], l => Some (set_m_q (send j l (m_q M1)) M1)
        | l, _ => Some (set_m_q (send j l (m_q M1)) M1)
        end
    end.
Definition m_go (M : mgr) : option mgr := m_advance (length (q_queue (m_q M))) M.
Definition m_succeed (j : job) (M : mgr) : option mgr := do M1 := m_finish_ok j M in m_go M1.
Definition m_fail (j : job) (M : mgr) : option mgr := m_go (m_finish_failed j M).
Definition m_send_other (j : job) (M : mgr) : option mgr :=
  match q_other (m_q M) with [] => m_succeed j M | l => Some (set_m_q (send j l (m_q M)) M) end.
Definition m_other_done (j : job) (u : fib_update) (M : mgr) : option mgr :=
  let M1 := set_m_q (set_q_other (fu_remove u (q_other (m_q M))) (m_q M)) M in
  match q_other (m_q M1) with [] => m_succeed j M1 | _ => Some M1 end.
Definition m_respond (c : command) (r : response) (M : mgr) : option mgr :=
  match r with
  | ROk =>
      if (fu_face (c_upd c) =? q_face (m_q M))%N then
        let M1 := set_m_q (set_q_batch (fu_remove (c_upd c) (q_batch (m_q M))) (m_q M)) M in
        match q_batch (m_q M1) with [] => m_send_other (c_job c) M1 | _ => Some M1 end
      else m_other_done (c_job c) (c_upd c) M
  | RTimeout =>
      if (c_tries c <? MAX_NUM_TIMEOUTS)%N
      then Some (set_m_q (set_q_out (q_out (m_q M) ++ [Cmd (c_job c) (c_upd c) true (c_tries c + 1)]) (m_q M)) M)
      else None
  | RFaceGone => if (fu_face (c_upd c) =? q_face (m_q M))%N then m_fail (c_job c) M else m_other_done (c_job c) (c_upd c) M
  | ROther => None
  end.
Definition m_enqueue (u : rib_update) (M : mgr) : mgr :=
  Mgr (enqueue u (m_q M)) (m_now M) (m_timers M) (m_owner M) (m_ann M) (m_jobs M ++ [u]).
(** rib.cpp:328-336 beginApplyUpdate *)
Definition m_submit (u : rib_update) (M : mgr) : option mgr := m_go (m_enqueue u M).

(** * rib-manager.cpp *)
Definition NS_MAX : Z := 9223372036854775807.
Definition MS : Z := 1000000.
(** a time point or duration of the steady clock; None: the signed number overflows *)
Definition ns (t : Z) : option Z := if ((- NS_MAX - 1 <=? t) && (t <=? NS_MAX))%Z then Some t else None.
(** what addRoute does: the EXPIRED result, or the number of the update that was submitted *)
Inductive added := AExpired | ASubmitted (i : N).
(** rib-manager.cpp:133-160 addRoute *)
Definition add_route (n : name) (r : route) (a : option (announcement * Z)) (M : mgr) : option (mgr * added) :=
  let i := q_next (m_q M) in
  let with_ann := Mgr (m_q M) (m_now M) (m_timers M) (m_owner M) (fun k => if (k =? i)%N then a else m_ann M k) (m_jobs M) in
  match r_expires r with
  | Some t =>
      if (t <=? m_now M)%Z then do M' := m_submit (RibUpdate Unregister n r) M in Some (M', AExpired)
      else do M' := m_submit (RibUpdate Register n r) (set_m_timers (m_timers M ++ [Timer i t n r]) with_ann) in Some (M', ASubmitted i)
  | None => do M' := m_submit (RibUpdate Register n r) with_ann in Some (M', ASubmitted i)
  end.

(** ndn::nfd::ControlParameters of the commands.  Absent fields other than ExpirationPeriod have got their defaults; the
    period (ms) is a signed 64-bit number *)
Record params := Params { p_name : name; p_face : N; p_origin : N; p_cost : N; p_flags : N; p_period : option Z }.
Inductive sl_result := SlOk | SlError | SlInvalid | SlExpired | SlNotFound.
(** what the caller is told: a control response; a result, or that the result is the report on an update *)
Inductive reply := RResponse (code : N) (body : option params) | RResult (r : sl_result) | RLater (i : N).

(** rib-manager.cpp:211-219 self registration *)
Definition with_face (incoming : N) (p : params) : params :=
  Params (p_name p) (if (p_face p =? 0)%N then incoming else p_face p) (p_origin p) (p_cost p) (p_flags p) (p_period p).
(** rib-manager.cpp:237-241 *)
Definition expires_of (now : Z) (period : option Z) : option (option Z) :=
  match period with
  | None => Some None
  | Some d => if (d =? NS_MAX)%Z then Some None else do x := ns (d * MS)%Z in do t := ns (now + x)%Z in Some (Some t)
  end.
(** rib-manager.cpp:211-244 registerEntry *)
Definition register (incoming : N) (p : params) (M : mgr) : option (mgr * list reply) :=
  if (MAX_DEPTH <? length (p_name p))%nat then Some (M, [RResponse 414 None])
  else
    let p := with_face incoming p in
    do e := expires_of (m_now M) (p_period p) in
    do (M', _) := add_route (p_name p) (Route (p_face p) (p_origin p) (p_cost p) (p_flags p) e) None M in
    Some (M', [RResponse 200 (Some p)]).
(** rib-manager.cpp:246-266 unregisterEntry *)
Definition unregister (incoming : N) (p : params) (M : mgr) : option (mgr * list reply) :=
  let p := with_face incoming p in
  do M' := m_submit (RibUpdate Unregister (p_name p) (Route (p_face p) (p_origin p) 0 0 None)) M in
  Some (M', [RResponse 200 (Some p)]).
(** route.cpp:34-50 computeExpiration; [sys] is the system clock *)
Definition ann_expires (now sys : Z) (pa : announcement) : option Z :=
  let validity := match pa_validity pa with
                  | None => NS_MAX
                  | Some (a, b) => if (a <=? sys)%Z && (sys <=? b)%Z then (b - sys)%Z else 0%Z
                  end in
  do x := ns (pa_expiration pa * MS)%Z in ns (now + Z.min validity x)%Z.
Definition ORIGIN_PREFIXANN : N := 129.
Definition PA_ROUTE_COST : N := 2048.   (* route.hpp:86 *)
(** route.cpp:52-62 *)
Definition pa_route (face : N) (e : Z) : route := Route face ORIGIN_PREFIXANN PA_ROUTE_COST 1 (Some e).
(** rib-manager.cpp:268-307 announceEntry, when the validator has answered *)
Definition announce (incoming : N) (pa : announcement) (valid : bool) (sys : Z) (M : mgr) : option (mgr * list reply) :=
  if (MAX_DEPTH <? length (pa_name pa))%nat then Some (M, [RResponse 414 None])
  else if valid then
    do e := ann_expires (m_now M) sys pa in
    do (M', _) := add_route (pa_name pa) (pa_route incoming e) (Some (pa, e)) M in
    Some (M', [RResponse 200 (Some (Params (pa_name pa) incoming ORIGIN_PREFIXANN PA_ROUTE_COST 1 (Some (Z.quot (e - m_now M)%Z MS))))])
  else Some (M, [RResponse 403 None]).
Definition sl_reply (a : added) : reply := match a with AExpired => RResult SlExpired | ASubmitted i => RLater i end.
(** rib-manager.cpp:385-411 slAnnounce, when the validator has answered; [life] in ms *)
Definition sl_announce (pa : announcement) (face : N) (life : Z) (valid : bool) (sys : Z) (M : mgr) : option (mgr * list reply) :=
  if valid then
    do e := ann_expires (m_now M) sys pa in
    do x := ns (life * MS)%Z in do t := ns (m_now M + x)%Z in
    do (M', a) := add_route (pa_name pa) (pa_route face (Z.min e t)) (Some (pa, e)) M in
    Some (M', [sl_reply a])
  else Some (M, [RResult SlInvalid]).
(** rib.cpp:46-65 find *)
Definition rib_find (n : name) (f o : N) (R : rib) : option route :=
  match rb_map R !! n with Some e => find_route (Route f o 0 0 None) (re_routes e) | None => None end.
(** rib.cpp:67-80 findLongestPrefix: the prefix at which the route is, and the route *)
Definition find_longest (n : name) (f o : N) (R : rib) : option (name * route) :=
  match rib_find n f o R with
  | Some r => Some (n, r)
  | None => match find_parent (rb_map R) n with
            | Some p => match rib_find p f o R with Some r => Some (p, r) | None => None end
            | None => None
            end
  end.
(** the announcement of a route in the RIB, and annExpires *)
Definition ann_of (M : mgr) (n : name) (r : route) : option (announcement * Z) :=
  match m_owner M (rkey_of n r) with Some i => m_ann M i | None => None end.
(** rib-manager.cpp:413-441 slRenew *)
Definition sl_renew (n : name) (face : N) (life : Z) (M : mgr) : option (mgr * list reply) :=
  match find_longest n face ORIGIN_PREFIXANN (q_rib (m_q M)) with
  | Some (p, old) =>
      match ann_of M p old with
      | Some (pa, e) =>
          do x := ns (life * MS)%Z in do t := ns (m_now M + x)%Z in
          do (M', a) := add_route (pa_name pa) (Route (r_face old) (r_origin old) (r_cost old) (r_flags old) (Some (Z.min e t))) (Some (pa, e)) M in
          Some (M', [sl_reply a])
      | None => Some (M, [RResult SlNotFound])
      end
  | None => Some (M, [RResult SlNotFound])
  end.
(** rib.cpp:348-358 beginRemoveFailedFaces *)
Definition failed_face_updates (active : list N) (R : rib) : list (name * route) :=
  concat (map (fun x => if existsb (N.eqb (fst x)) active then []
                        else List.filter (fun y => (r_face (snd y) =? fst x)%N) (routes_of_id (snd x) (rb_map R))) (rb_faces R)).
Definition m_remove_all (l : list (name * route)) (M : mgr) : option mgr :=
  m_go (fold_left (fun M x => m_enqueue (RibUpdate RemoveFace (fst x) (snd x)) M) l M).

Inductive mevent :=
| ERegister (incoming : N) (p : params)
| EUnregister (incoming : N) (p : params)
| EAnnounce (incoming : N) (pa : announcement) (valid : bool) (sys : Z)
| ESlAnnounce (pa : announcement) (face : N) (life : Z) (valid : bool) (sys : Z)
| ESlRenew (n : name) (face : N) (life : Z)
| EFaceGone (f : N)                 (* rib-manager.cpp:486-496 *)
| EActive (faces : list N)          (* rib-manager.cpp:471-481 *)
| EFib (i : nat) (r : response)     (* the response to one of the FIB commands under way *)
| EClock (t : Z)                    (* the clock goes on *)
| EFire (i : N).                    (* the scheduler makes the call with that number, which is due *)
(** rib.cpp:188-193 onRouteExpiration *)
Definition fire (i : N) (M : mgr) : option mgr :=
  match List.find (fun x => (t_id x =? i)%N) (m_timers M) with
  | Some x =>
      if (t_at x <=? m_now M)%Z then
        m_submit (RibUpdate Unregister (t_name x) (t_route x)) (set_m_timers (List.filter (fun y => negb (t_id y =? i)%N) (m_timers M)) M)
      else Some M
  | None => Some M
  end.
Definition quietly (o : option mgr) : option (mgr * list reply) := do M := o in Some (M, []).
Definition m_step (e : mevent) (M : mgr) : option (mgr * list reply) :=
  match e with
  | ERegister f p => register f p M
  | EUnregister f p => unregister f p M
  | EAnnounce f pa v s => announce f pa v s M
  | ESlAnnounce pa f l v s => sl_announce pa f l v s M
  | ESlRenew n f l => sl_renew n f l M
  | EFaceGone f => quietly (m_remove_all (remove_face_updates f (q_rib (m_q M))) M)
  | EActive fs => quietly (m_remove_all (failed_face_updates fs (q_rib (m_q M))) M)
  | EFib i r =>
      match q_out (m_q M) !! i with
      | Some c => quietly (m_respond c r (set_m_q (set_q_out (take i (q_out (m_q M)) ++ drop (S i) (q_out (m_q M))) (m_q M)) M))
      | None => Some (M, [])
      end
  | EClock t => Some (if (m_now M <=? t)%Z then set_m_now t M else M, [])
  | EFire i => quietly (fire i M)
  end.
Definition m_run (l : list mevent) : option mgr := each_of (fun e M => fst <$> m_step e M) l mgr_init.

(** * Queries *)
(** rib-manager.cpp:309-332 listEntries: the entries in order, and of each route the face, origin, cost, flags and the
    rest of its time (ms) *)
Definition list_route (now : Z) (r : route) : N * N * N * N * option Z :=
  (r_face r, r_origin r, r_cost r, r_flags r, (fun t => Z.quot (t - now)%Z MS) <$> r_expires r).
Definition list_entries (M : mgr) : list (name * list (N * N * N * N * option Z)) :=
  map (fun n => (n, match rb_map (q_rib (m_q M)) !! n with Some e => map (list_route (m_now M)) (re_routes e) | None => [] end))
      (rib_names (rb_map (q_rib (m_q M)))).
(** rib-entry.cpp:225-257 getPrefixAnnouncement, with the bounds of rib-entry.hpp:122-126 (15 seconds and one hour): the
    announcement of a route, or one for the entry with a period.  None: the signed number overflows *)
Inductive found_ann := FAnnounced (pa : announcement) | FMade (n : name) (period : Z).
Definition best_ann (M : mgr) (n : name) (best : option (announcement * Z)) (r : route) : option (announcement * Z) :=
  match r_expires r, ann_of M n r with
  | Some t, Some (pa, _) => match best with Some (_, b) => if (b <? t)%Z then Some (pa, t) else best | None => Some (pa, t) end
  | _, _ => best
  end.
Definition entry_expiry (l : list route) : Z :=
  fold_left (fun e r => match r_expires r with Some t => Z.max e t | None => NS_MAX end) l (- NS_MAX - 1)%Z.
Definition clamp (lo hi x : Z) : Z := if (x <? lo)%Z then lo else if (hi <? x)%Z then hi else x.
Definition entry_ann (M : mgr) (n : name) (l : list route) : option found_ann :=
  match fold_left (best_ann M n) l None with
  | Some (pa, _) => Some (FAnnounced pa)
  | None => do d := ns (entry_expiry l - m_now M)%Z in Some (FMade n (clamp 15000 3600000 (Z.quot d MS)))
  end.
(** rib-manager.cpp:443-463 slFindAnn *)
Definition sl_find_ann (n : name) (M : mgr) : option (option found_ann) :=
  let m := rb_map (q_rib (m_q M)) in
  match m !! n with
  | Some e => do a := entry_ann M n (re_routes e) in Some (Some a)
  | None => match find_parent m n with
            | Some p => match m !! p with Some e => do a := entry_ann M p (re_routes e) in Some (Some a) | None => None end
            | None => Some None
            end
  end.
