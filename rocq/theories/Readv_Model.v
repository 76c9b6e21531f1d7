(** Readvertising RIB routes to a destination: daemon/rib/readvertise. *)
From stdpp Require Import gmap.
From Verif Require Import Lib Name_Model Rib_Model.

(** rib.hpp:46-57 RibRouteRef, as it is compared: the name of the entry, the face and the origin *)
Definition rkey : Type := name * N * N.
Definition rkey_eqb (a b : rkey) : bool := name_eqb (fst (fst a)) (fst (fst b)) && (snd (fst a) =? snd (fst b))%N && (snd a =? snd b)%N.
(** readvertise-policy.hpp:35-41 ReadvertiseAction; a signer is known by a number *)
Record action := Action { a_prefix : name; a_cost : N; a_signer : N }.
(** readvertise-policy.hpp:45-63 ReadvertisePolicy: handleNewRoute, of a route with a cost, and getRefreshInterval
    (ms) *)
Record policy := Policy { p_handle : rkey -> N -> option action; p_refresh : N }.

Inductive vop := Advertise | Withdraw.
(** readvertised-route.hpp:41-69 ReadvertisedRoute.  The node is known by a number; the timer carries what it
    calls and its delay before randomizeTimer (readvertise.cpp:39-45) moves it by up to 5 ms.  nRibRoutes is
    a size_t: no overflow, each unit is an element of a map in memory *)
Record rr := RR { rr_id : N; rr_prefix : name; rr_cost : N; rr_signer : N; rr_n : N; rr_delay : N; rr_timer : option (vop * N) }.
(** a command without a response: the node its callbacks point to, the operation, the prefix *)
Record sent := Sent { s_rr : N; s_op : vop; s_prefix : name }.
(** what the destination sees: it becomes available, a prefix is advertised with a cost and a signer,
    a prefix is withdrawn *)
Inductive seen := SeenUp | SeenAdvertise (p : name) (cost signer : N) | SeenWithdraw (p : name).
(** readvertise.hpp:66-77: m_rrs, m_routeToRr; readvertise-destination.hpp:70 m_isAvailable *)
Record rv := RV { v_rrs : list rr; v_map : list (rkey * N); v_avail : bool; v_out : list sent; v_seen : list seen; v_next : N }.
Definition rv_empty : rv := RV [] [] false [] [] 0.

Definition RETRY_DELAY_MIN : N := 50000.      (* readvertise.cpp:36 *)
Definition RETRY_DELAY_MAX : N := 3600000.    (* readvertise.cpp:37 *)
Definition has_id (id : N) (r : rr) : bool := (rr_id r =? id)%N.
Definition find_id (id : N) (v : rv) : option rr := List.find (has_id id) (v_rrs v).
Definition set_rrs (l : list rr) (v : rv) : rv := RV l (v_map v) (v_avail v) (v_out v) (v_seen v) (v_next v).
Definition set_map (l : list (rkey * N)) (v : rv) : rv := RV (v_rrs v) l (v_avail v) (v_out v) (v_seen v) (v_next v).
Definition set_vout (l : list sent) (v : rv) : rv := RV (v_rrs v) (v_map v) (v_avail v) l (v_seen v) (v_next v).
Definition set_avail (b : bool) (s : list seen) (v : rv) : rv := RV (v_rrs v) (v_map v) b (v_out v) (v_seen v ++ s) (v_next v).
Definition on_id (id : N) (f : rr -> rr) (v : rv) : rv := set_rrs (map (fun r => if has_id id r then f r else r) (v_rrs v)) v.
Definition erase_id (id : N) (v : rv) : rv := set_rrs (List.filter (fun r => negb (has_id id r)) (v_rrs v)) v.
Definition with_signer (s : N) (r : rr) : rr := RR (rr_id r) (rr_prefix r) (rr_cost r) s (rr_n r) (rr_delay r) (rr_timer r).
Definition with_n (n : N) (r : rr) : rr := RR (rr_id r) (rr_prefix r) (rr_cost r) (rr_signer r) n (rr_delay r) (rr_timer r).
Definition with_delay (d : N) (r : rr) : rr := RR (rr_id r) (rr_prefix r) (rr_cost r) (rr_signer r) (rr_n r) d (rr_timer r).
Definition with_timer (t : option (vop * N)) (r : rr) : rr := RR (rr_id r) (rr_prefix r) (rr_cost r) (rr_signer r) (rr_n r) (rr_delay r) t.
Definition command_sent (r : rr) (o : vop) (v : rv) : rv :=
  RV (v_rrs v) (v_map v) (v_avail v) (v_out v ++ [Sent (rr_id r) o (rr_prefix r)])
     (v_seen v ++ [match o with Advertise => SeenAdvertise (rr_prefix r) (rr_cost r) (rr_signer r) | Withdraw => SeenWithdraw (rr_prefix r) end]) (v_next v).

(** None: a node that was erased is used, or an assertion fails *)
(** readvertise.cpp:147-171 advertise, without its callbacks *)
Definition advertise (id : N) (v : rv) : option rv :=
  do r := find_id id v in
  if (rr_n r =? 0)%N then None
  else if v_avail v then Some (command_sent r Advertise v) else Some v.
(** readvertise.cpp:173-195 withdraw, without its callbacks *)
Definition withdraw (id : N) (v : rv) : option rv :=
  do r := find_id id v in
  if negb (rr_n r =? 0)%N then None
  else if v_avail v then Some (command_sent r Withdraw v) else Some (erase_id id v).
(** readvertise.cpp:68-103 afterAddRoute *)
Definition after_add (pol : policy) (k : rkey) (cost : N) (v : rv) : option rv :=
  match p_handle pol k cost with
  | None => Some v
  | Some a =>
      let '(id, v1) := match List.find (fun r => name_eqb (rr_prefix r) (a_prefix a)) (v_rrs v) with
                       | Some r => (rr_id r, v)
                       | None => (v_next v, RV (v_rrs v ++ [RR (v_next v) (a_prefix a) (a_cost a) 0 0 0 None]) (v_map v) (v_avail v) (v_out v) (v_seen v) (v_next v + 1)%N)
                       end in
      let v2 := on_id id (with_signer (a_signer a)) v1 in
      match List.find (fun x => rkey_eqb (fst x) k) (v_map v2) with
      | Some _ => None   (* BOOST_VERIFY *)
      | None =>
          let v3 := set_map (v_map v2 ++ [(k, id)]) v2 in
          do r := find_id id v3 in
          let v4 := on_id id (with_n (rr_n r + 1)) v3 in
          if (0 <? rr_n r)%N then Some v4
          else advertise id (on_id id (with_delay RETRY_DELAY_MIN) v4)
      end
  end.
(** readvertise.cpp:105-127 beforeRemoveRoute *)
Definition before_remove (k : rkey) (v : rv) : option rv :=
  match List.find (fun x => rkey_eqb (fst x) k) (v_map v) with
  | None => Some v
  | Some (_, id) =>
      let v1 := set_map (List.filter (fun x => negb (rkey_eqb (fst x) k)) (v_map v)) v in
      do r := find_id id v1 in
      let v2 := on_id id (with_n (rr_n r - 1)) v1 in
      if (0 <? rr_n r - 1)%N then Some v2
      else withdraw id (on_id id (with_delay RETRY_DELAY_MIN) v2)
  end.
(** readvertise-destination.cpp:33-46 setAvailability with readvertise.cpp:129-145 afterDestinationAvailable,
    afterDestinationUnavailable.  The nodes are gone through in the order they were made, not by prefix *)
Definition set_availability (b : bool) (v : rv) : option rv :=
  if Bool.eqb b (v_avail v) then Some v
  else if b then
    let v1 := set_avail true [SeenUp] v in
    each_of (fun id v => advertise id (on_id id (with_delay RETRY_DELAY_MIN) v)) (map rr_id (v_rrs v1)) v1
  else
    Some (set_rrs (map (with_timer None) (List.filter (fun r => (0 <? rr_n r)%N) (v_rrs v))) (set_avail false [] v)).
(** the callbacks of readvertise.cpp:156-170,182-194 *)
Definition failed (o : vop) (r : rr) : rr :=
  let d := N.min RETRY_DELAY_MAX (rr_delay r * 2) in with_timer (Some (o, d)) (with_delay d r).
Definition after_response (pol : policy) (c : sent) (ok : bool) (v : rv) : option rv :=
  do r := find_id (s_rr c) v in
  Some match s_op c, ok with
       | Advertise, true => on_id (s_rr c) (fun r => with_timer (Some (Advertise, p_refresh pol)) (with_delay RETRY_DELAY_MIN r)) v
       | Withdraw, true => erase_id (s_rr c) v
       | o, false => on_id (s_rr c) (failed o) v
       end.
Inductive vevent :=
| VAdd (k : rkey) (cost : N)       (* Rib::afterAddRoute *)
| VRemove (k : rkey)               (* Rib::beforeRemoveRoute *)
| VAvail (b : bool)                (* the destination becomes available or unavailable *)
| VRespond (i : nat) (ok : bool)   (* a command is answered *)
| VTimer (p : name).               (* the timer of a prefix expires *)
Definition v_step (pol : policy) (e : vevent) (v : rv) : option rv :=
  match e with
  | VAdd k c => after_add pol k c v
  | VRemove k => before_remove k v
  | VAvail b => set_availability b v
  | VRespond i ok =>
      match v_out v !! i with
      | Some c => after_response pol c ok (set_vout (take i (v_out v) ++ drop (S i) (v_out v)) v)
      | None => Some v
      end
  | VTimer p =>
      match List.find (fun r => name_eqb (rr_prefix r) p) (v_rrs v) with
      | Some r =>
          match rr_timer r with
          | Some (o, _) =>
              let v1 := on_id (rr_id r) (with_timer None) v in
              match o with Advertise => advertise (rr_id r) v1 | Withdraw => withdraw (rr_id r) v1 end
          | None => Some v
          end
      | None => Some v
      end
  end.
Definition v_run (pol : policy) (l : list vevent) : option rv := each_of (v_step pol) l rv_empty.

(** ** Policies *)
Definition ROUTE_ORIGIN_CLIENT : N := 65.   (* ndn-cxx encoding/nfd-constants.hpp *)
(** client-to-nlsr-readvertise-policy.cpp:30-46 *)
Definition client_to_nlsr : policy :=
  Policy (fun k cost => if (snd k =? ROUTE_ORIGIN_CLIENT)%N then Some (Action (fst (fst k)) cost 0) else None) 3600000.
(** host-to-gateway-readvertise-policy.cpp:46-85.  [ids]: the identities of the PIB, in order, by number.
    Components are compared as such; [generic s] is the component with the text [s] *)
Section Host.
  Context (localhost localhop_nfd : name) (nrd : comp) (refresh : N).
  Definition identity_prefix (n : name) : name :=
    match List.last (map Some n) None with Some c => if name_eqb [c] [nrd] then take (length n - 1) n else n | None => n end.
  Definition pick (st : name * option N) (i : N * name) : name * option N :=
    let p := identity_prefix (snd i) in
    if name_prefixb p (fst st) then (p, Some (fst i)) else st.
  Definition host_to_gateway (ids : list (N * name)) : policy :=
    Policy (fun k cost =>
      let n := fst (fst k) in
      if name_prefixb localhost n || name_eqb n localhop_nfd then None
      else match fold_left pick ids (n, None) with
           | (p, Some s) => Some (Action p cost s)
           | (_, None) => None
           end) refresh.
End Host.
