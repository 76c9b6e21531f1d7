(** Specification of FIB, PIT, strategy choice and measurements, stated on what the
    public searches return: a finite map per table.  The name tree underneath does
    not appear. *)
From stdpp Require Import gmap.
From Verif Require Import Lib Name_Model Packet_Model Tab_Model.

(** what each table holds *)
Notation fib_at T n := (fib_find n T).
Notation pit_at T k := (pit_get k T).
Definition meas_at (T : tables) (n : name) : option meas_entry :=
  match tr T !! n with Some e => e_meas e | None => None end.
Notation sc_at T n := (sc_get n T).

(** table unchanged *)
Definition same_fib (T T' : tables) : Prop := (forall n, fib_at T' n = fib_at T n) /\ fib_n T' = fib_n T.
Definition same_pit (T T' : tables) : Prop := (forall k, pit_at T' k = pit_at T k) /\ pit_n T' = pit_n T.
Definition same_meas (T T' : tables) : Prop := (forall n, meas_at T' n = meas_at T n) /\ meas_n T' = meas_n T.
Definition same_sc (T T' : tables) : Prop := (forall n, sc_at T' n = sc_at T n) /\ sc_n T' = sc_n T.

(** [f] is defined at exactly [k] keys *)
Definition counts {K V} (f : K -> option V) (k : nat) : Prop :=
  exists l : list K, NoDup l /\ length l = k /\ forall x, x ∈ l <-> is_Some (f x).
(** a size_t counter showing the number of keys (modulo 2^64) *)
Definition counter_ok {K V} (n : N) (f : K -> option V) : Prop :=
  exists k, counts f k /\ n = (N.of_nat k mod 2 ^ 64)%N.

(** [p] is the longest prefix of [n] at which [f] is defined *)
Definition longest_defined {V} (f : name -> option V) (n p : name) : Prop :=
  p `prefix_of` n /\ is_Some (f p) /\ forall q, q `prefix_of` n -> is_Some (f q) -> length q <= length p.

(** std::sort by increasing cost *)
Definition cost_le (a b : nexthop) : Prop := (nh_cost a <= nh_cost b)%N.
Definition sort_ok (sort : list nexthop -> list nexthop) : Prop :=
  forall l, sort l ≡ₚ l /\ StronglySorted cost_le (sort l).

(** a nexthop list a strategy can rely on *)
Definition nexthops_ok (l : list nexthop) : Prop :=
  StronglySorted cost_le l /\ NoDup (nh_face <$> l).
Definition cost_of (f : N) (l : list nexthop) : option N :=
  match List.find (fun h => (nh_face h =? f)%N) l with Some h => Some (nh_cost h) | None => None end.

(** * Histories *)
Section history.
  Variable sort_nexthops : list nexthop -> list nexthop.
  Variable create_strategy : name -> create_result.
  Variable same_type : name -> name -> bool.

  Inductive tab_op :=
  | OFibInsert (n : name)
  | OFibErase (n : name)
  | OFibAdd (n : name) (f cost : N)
  | OFibRemove (n : name) (f : N)
  | OPitInsert (i : interest)
  | OPitErase (k : pit_key)
  | OPitIn (k : pit_key) (f : N) (i : interest)      (* insertOrUpdateInRecord *)
  | OPitOut (k : pit_key) (f : N) (i : interest)     (* insertOrUpdateOutRecord *)
  | OPitDelIn (k : pit_key) (f : N)
  | OPitDelOut (k : pit_key) (f : N)
  | OPitClearIn (k : pit_key)
  | OPitNack (k : pit_key) (f nonce reason : N)      (* setIncomingNack *)
  | OPitInfo (k : pit_key) (si : sinfo)              (* strategy info on the entry *)
  | OPitInInfo (k : pit_key) (f : N) (si : sinfo)
  | OPitOutInfo (k : pit_key) (f : N) (si : sinfo)
  | OPitMeta (k : pit_key) (sat : bool) (fresh : Z) (timer : option Z)
  | OMeasGet (n : name)
  | OMeasGetPit (k : pit_key)
  | OMeasParent (n : name)
  | OMeasExtend (n : name) (lifetime : Z)
  | OMeasInfo (n : name) (si : sinfo)
  | OScDefault (req : name)
  | OScInsert (p req : name)
  | OScErase (p : name)
  | OFaceGone (f : N)
  | OTick (d : Z).

  Definition in_info (f : N) (si : sinfo) (e : pit_entry) : pit_entry :=
    set_pe_in (map (fun r => if (fr_face (ir_rec r) =? f)%N
                             then InRecord (FaceRecord (fr_face (ir_rec r)) (fr_nonce (ir_rec r)) (fr_renewed (ir_rec r)) (fr_expiry (ir_rec r)) si) (ir_interest r)
                             else r) (pe_in e)) e.
  Definition out_info (f : N) (si : sinfo) (e : pit_entry) : pit_entry :=
    set_pe_out (map (fun r => if (fr_face (or_rec r) =? f)%N
                              then OutRecord (FaceRecord (fr_face (or_rec r)) (fr_nonce (or_rec r)) (fr_renewed (or_rec r)) (fr_expiry (or_rec r)) si) (or_nack r)
                              else r) (pe_out e)) e.

  Definition tab_step (T : tables) (o : tab_op) : option tables :=
    match o with
    | OFibInsert n => option_map fst (fib_insert n T)
    | OFibErase n => Some (fib_erase n T)
    | OFibAdd n f c => option_map fst (fib_add_nexthop sort_nexthops n f c T)
    | OFibRemove n f => option_map fst (fib_remove_nexthop n f T)
    | OPitInsert i => option_map (fun x => x.1.1) (pit_insert i T)
    | OPitErase k => pit_erase k T
    | OPitIn k f i => Some (pit_upd k (fun e => set_pe_in (insert_or_update_in f i (now T) (pe_in e)) e) T)
    | OPitOut k f i => Some (pit_upd k (fun e => set_pe_out (insert_or_update_out f i (now T) (pe_out e)) e) T)
    | OPitDelIn k f => Some (pit_upd k (fun e => set_pe_in (delete_in f (pe_in e)) e) T)
    | OPitDelOut k f => Some (pit_upd k (fun e => set_pe_out (delete_out f (pe_out e)) e) T)
    | OPitClearIn k => Some (pit_upd k (set_pe_in []) T)
    | OPitNack k f nonce reason => Some (pit_upd k (fun e => set_pe_out (out_nack f nonce reason (pe_out e)) e) T)
    | OPitInfo k si => Some (pit_upd k (fun e => PitEntry (pe_interest e) (pe_in e) (pe_out e) (pe_satisfied e) (pe_fresh e) (pe_timer e) si) T)
    | OPitInInfo k f si => Some (pit_upd k (in_info f si) T)
    | OPitOutInfo k f si => Some (pit_upd k (out_info f si) T)
    | OPitMeta k sat fresh timer => Some (pit_upd k (fun e => PitEntry (pe_interest e) (pe_in e) (pe_out e) sat fresh timer (pe_info e)) T)
    | OMeasGet n => option_map fst (meas_get n T)
    | OMeasGetPit k => option_map fst (meas_get_pit k T)
    | OMeasParent n => option_map fst (meas_get_parent n T)
    | OMeasExtend n l => meas_extend n l T
    | OMeasInfo n si => Some (upd n (fun e => set_meas (option_map (fun m => MeasEntry (me_name m) (me_expiry m) (me_timer m) si) (e_meas e)) e) T)
    | OScDefault req => sc_set_default create_strategy req T
    | OScInsert p req => option_map fst (sc_insert create_strategy same_type p req T)
    | OScErase p => sc_erase same_type p T
    | OFaceGone f => cleanup_on_face_removal f T
    | OTick d => Some (tick d T)
    end.

  (** what callers respect: an entry passed by reference exists, Interests passed to
      a PIT entry belong to it, FIB prefixes are within the depth limit, the default
      strategy is set once and first, the clock does not go back *)
  Definition op_ok (T : tables) (o : tab_op) : Prop :=
    match o with
    | OFibInsert n => length n <= 32
    | OFibErase n | OFibAdd n _ _ | OFibRemove n _ => is_Some (fib_at T n)
    | OPitInsert i => True
    | OPitErase k | OPitDelIn k _ | OPitDelOut k _ | OPitClearIn k | OPitNack k _ _ _
    | OPitInfo k _ | OPitInInfo k _ _ | OPitOutInfo k _ _ | OPitMeta k _ _ _ | OMeasGetPit k => is_Some (pit_at T k)
    | OPitIn k f i | OPitOut k f i => is_Some (pit_at T k) /\ key_of i = k /\ (0 <= i_lifetime i)%Z
    | OMeasGet n => True
    | OMeasParent n | OMeasExtend n _ | OMeasInfo n _ => is_Some (meas_at T n)
    | OScDefault req => sc_at T [] = None /\ exists s, create_strategy req = Created s
    | OScInsert _ _ => is_Some (sc_at T [])
    | OScErase p => is_Some (sc_at T []) /\ p <> []
    | OFaceGone f => True
    | OTick d => (0 <= d)%Z
    end.

  Inductive tab_reachable : tables -> Prop :=
  | tab_reach_new : tab_reachable new_tables
  | tab_reach_step T o T' :
      tab_reachable T -> op_ok T o -> tab_step T o = Some T' -> tab_reachable T'.
End history.
