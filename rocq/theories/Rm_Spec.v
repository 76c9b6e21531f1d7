(** What the RIB manager is expected to do. *)
From stdpp Require Import gmap.
From Verif Require Import Lib Name_Model Rib_Model Rib_Spec RibQueue_Model RibQueue_Spec Rm_Model.

(** the route of a prefix, face and origin in the RIB *)
Definition route_in (M : mgr) (n : name) (f o : N) : option route := route_at (q_rib (m_q M)) n f o.
(** the update with that number *)
Definition is_job (M : mgr) (i : N) (u : rib_update) : Prop := m_jobs M !! N.to_nat i = Some u.
(** the update with that number is reported, as done or as failed *)
Definition reported (M : mgr) (i : N) (ok : bool) : Prop := exists u, ((i, u), ok) ∈ q_log (m_q M).
(** the numbers in the reports, in the order of the reports *)
Definition report_numbers (M : mgr) : list N := map (fun x => fst (fst x)) (q_log (m_q M)).
(** each update that was submitted is reported, once, in the order in which they were submitted *)
Definition all_reported (M : mgr) : Prop := report_numbers M = map N.of_nat (seq 0 (length (m_jobs M))).
(** no unregistration failed *)
Definition removals_done (M : mgr) : Prop := forall i u, ((i, u), false) ∈ q_log (m_q M) -> ru_action u = Register.
(** no call is due *)
Definition none_due (M : mgr) : Prop := forall x, x ∈ m_timers M -> (m_now M < t_at x)%Z.

(** the face that a command is about *)
Definition meant (incoming f : N) : N := match f with N0 => incoming | _ => f end.
(** a number of nanoseconds that the clocks can count *)
Definition countable (t : Z) : Prop := (- 2 ^ 63 <= t < 2 ^ 63)%Z.
(** the update that is submitted for a route that is to be there until [t]: at that time already, it is removed *)
Definition until (now : Z) (n : name) (f o c fl : N) (t : option Z) : rib_update :=
  RibUpdate (match t with Some t => if bool_decide (t <= now)%Z then Unregister else Register | None => Register end) n (Route f o c fl t).
(** the validity of an announcement ends at that time of the steady clock *)
Definition ann_ends (now sys : Z) (pa : announcement) (e : Z) : Prop :=
  match pa_validity pa with
  | None => e = (now + pa_expiration pa * 1000000)%Z
  | Some (a, b) =>
      ((a <= sys <= b)%Z -> e = (now + Z.min (b - sys) (pa_expiration pa * 1000000))%Z) /\
      (~ (a <= sys <= b)%Z -> e = (now + Z.min 0 (pa_expiration pa * 1000000))%Z)
  end.
(** the name itself, or else the longest of its prefixes that has a RIB entry *)
Definition closest (R : rib) (n p : name) : Prop :=
  registered R p /\ p `prefix_of` n /\ forall q, registered R q -> q `prefix_of` n -> q `prefix_of` p.
(** the last of the times at which the routes expire: for one that does not, the last that the clock can count *)
Definition expiry (r : route) : Z := match r_expires r with Some t => t | None => (2 ^ 63 - 1)%Z end.
Definition latest (l : list route) (t : Z) : Prop := (exists r, r ∈ l /\ expiry r = t) /\ forall r, r ∈ l -> (expiry r <= t)%Z.
