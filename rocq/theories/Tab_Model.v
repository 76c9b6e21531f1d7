(** FIB, PIT, strategy choice and measurements tables:
    daemon/table/{fib,fib-entry,pit,pit-entry,strategy-choice,measurements,cleanup}.{hpp,cpp}.

    A face is its FaceId, a pointer to a table entry is the name of the name tree
    entry it hangs on (a PIT entry: its key).  A failed BOOST_ASSERT is [None].
    Counters are size_t and wrap around. *)
From stdpp Require Import gmap.
From Verif Require Import Lib Name_Model Packet_Model Nt_Model Tree_Model.

Definition U64 : N := 2 ^ 64.
(** ++ and -- on size_t *)
Definition inc64 (n : N) : N := ((n + 1) mod U64)%N.
Definition dec64 (n : N) : N := ((n + (U64 - 1)) mod U64)%N.

(** strategy-info-host.hpp StrategyInfoHost::m_items: type id to payload *)
Definition sinfo := list (N * list Z).

(** fib-entry.hpp:50-78 NextHop *)
Record nexthop := NextHop { nh_face : N; nh_cost : N }.
(** fib-entry.hpp:89-166 Entry *)
Record fib_entry := FibEntry { fe_prefix : name; fe_nexthops : list nexthop }.

(** pit-entry.hpp:55-101 FaceRecord.  Times are steady_clock nanoseconds. *)
Record face_record := FaceRecord {
  fr_face : N;
  fr_nonce : N;
  fr_renewed : Z;
  fr_expiry : Z;
  fr_info : sinfo;
}.
(** pit-entry.hpp:106-123 InRecord *)
Record in_record := InRecord { ir_rec : face_record; ir_interest : interest }.
(** pit-entry.hpp:128-173 OutRecord; the Nack header is its reason *)
Record out_record := OutRecord { or_rec : face_record; or_nack : option N }.

(** pit-entry.hpp:193-405 Entry *)
Record pit_entry := PitEntry {
  pe_interest : interest;                (* m_interest *)
  pe_in : list in_record;                (* m_inRecords *)
  pe_out : list out_record;              (* m_outRecords *)
  pe_satisfied : bool;                   (* isSatisfied *)
  pe_fresh : Z;                          (* dataFreshnessPeriod, ms *)
  pe_timer : option Z;                   (* expiryTimer: when it fires *)
  pe_info : sinfo;
}.
Definition set_pe_in (l : list in_record) (e : pit_entry) : pit_entry :=
  PitEntry (pe_interest e) l (pe_out e) (pe_satisfied e) (pe_fresh e) (pe_timer e) (pe_info e).
Definition set_pe_out (l : list out_record) (e : pit_entry) : pit_entry :=
  PitEntry (pe_interest e) (pe_in e) l (pe_satisfied e) (pe_fresh e) (pe_timer e) (pe_info e).

(** the identity of a PIT entry *)
Record pit_key := PitKey { pk_name : name; pk_cbp : bool; pk_mbf : bool }.
Definition key_of (i : interest) : pit_key := PitKey (i_name i) (i_cbp i) (i_mbf i).
Definition pe_key (e : pit_entry) : pit_key := key_of (pe_interest e).

(** measurements-entry.hpp:43-66 Entry *)
Record meas_entry := MeasEntry {
  me_name : name;
  me_expiry : Z;                         (* m_expiry *)
  me_timer : Z;                          (* m_cleanup: when it fires *)
  me_info : sinfo;
}.

(** name-tree-entry.hpp: what hangs on a name tree entry.  A strategy choice entry
    is the instance name of its strategy. *)
Record nte := Nte {
  e_fib : option fib_entry;
  e_pit : list pit_entry;
  e_meas : option meas_entry;
  e_sc : option name;
}.
Definition nte_empty : nte := Nte None [] None None.
(** name-tree-entry.cpp:62-69 hasTableEntries *)
Definition has_tables (e : nte) : bool :=
  match e_fib e, e_pit e, e_meas e, e_sc e with
  | None, [], None, None => false
  | _, _, _, _ => true
  end.
Definition set_fib (x : option fib_entry) (e : nte) : nte := Nte x (e_pit e) (e_meas e) (e_sc e).
Definition set_pit (x : list pit_entry) (e : nte) : nte := Nte (e_fib e) x (e_meas e) (e_sc e).
Definition set_meas (x : option meas_entry) (e : nte) : nte := Nte (e_fib e) (e_pit e) x (e_sc e).
Definition set_sc (x : option name) (e : nte) : nte := Nte (e_fib e) (e_pit e) (e_meas e) x.

(** all tables of the forwarder, and the clock they read *)
Record tables := Tables {
  tr : gmap name nte;
  fib_n : N;                             (* Fib::m_nItems *)
  pit_n : N;                             (* Pit::m_nItems *)
  sc_n : N;                              (* StrategyChoice::m_nItems *)
  meas_n : N;                            (* Measurements::m_nItems *)
  now : Z;
}.
Definition set_tr (t : gmap name nte) (T : tables) : tables :=
  Tables t (fib_n T) (pit_n T) (sc_n T) (meas_n T) (now T).
Definition set_fib_n (n : N) (T : tables) : tables := Tables (tr T) n (pit_n T) (sc_n T) (meas_n T) (now T).
Definition set_pit_n (n : N) (T : tables) : tables := Tables (tr T) (fib_n T) n (sc_n T) (meas_n T) (now T).
Definition set_sc_n (n : N) (T : tables) : tables := Tables (tr T) (fib_n T) (pit_n T) n (meas_n T) (now T).
Definition set_meas_n (n : N) (T : tables) : tables := Tables (tr T) (fib_n T) (pit_n T) (sc_n T) n (now T).
Definition set_now (z : Z) (T : tables) : tables :=
  Tables (tr T) (fib_n T) (pit_n T) (sc_n T) (meas_n T) z.
Definition new_tables : tables := Tables ∅ 0 0 0 0 0.

(** writing through a pointer to a name tree entry *)
Definition upd (n : name) (f : nte -> nte) (T : tables) : tables := set_tr (alter f n (tr T)) T.
Definition lookup_nte (n : name) (T : tables) : option tables :=
  match t_lookup nte_empty n (tr T) with Some t => Some (set_tr t T) | None => None end.
Definition erase_nte (n : name) (T : tables) : tables :=
  set_tr (t_erase_if_empty has_tables n true (tr T)) T.

(** * FIB *)
Section fib.
  (** std::sort with the comparison of fib-entry.cpp:77-81; nothing is assumed
      about the order of equal costs *)
  Variable sort_nexthops : list nexthop -> list nexthop.

  (** fib-entry.cpp:35-40 findNextHop, as a position *)
  Fixpoint find_nexthop (f : N) (l : list nexthop) : option nat :=
    match l with
    | [] => None
    | h :: l' => if (nh_face h =? f)%N then Some 0 else option_map S (find_nexthop f l')
    end.
  (** fib-entry.cpp:48-63 addOrUpdateNextHop: the list, the position returned, isNew *)
  Definition add_or_update_nexthop (f cost : N) (l : list nexthop) : list nexthop * nat * bool :=
    match find_nexthop f l with
    | Some i => (sort_nexthops (<[i := NextHop f cost]> l), i, false)
    | None => (sort_nexthops (l ++ [NextHop f cost]), length l, true)
    end.
  (** fib-entry.cpp:65-74 removeNextHop *)
  Definition remove_nexthop (f : N) (l : list nexthop) : option (list nexthop) :=
    match find_nexthop f l with
    | Some i => Some (take i l ++ drop (S i) l)
    | None => None
    end.

  (** fib.cpp:84-96 insert *)
  Definition fib_insert (n : name) (T : tables) : option (tables * bool) :=
    match lookup_nte n T with
    | None => None
    | Some T1 =>
        match tr T1 !! n with
        | None => None
        | Some e => match e_fib e with
                    | Some _ => Some (T1, false)
                    | None => Some (set_fib_n (inc64 (fib_n T1))
                                      (upd n (set_fib (Some (FibEntry n []))) T1), true)
                    end
        end
    end.

  (** fib.cpp:98-108 erase(nte, canDeleteNte) *)
  Definition fib_erase_nte (n : name) (can_delete : bool) (T : tables) : tables :=
    let T1 := upd n (set_fib None) T in
    let T2 := if can_delete then erase_nte n T1 else T1 in
    set_fib_n (dec64 (fib_n T2)) T2.
  (** fib.cpp:110-117 erase(prefix) *)
  Definition fib_erase (n : name) (T : tables) : tables :=
    match tr T !! n with Some _ => fib_erase_nte n true T | None => T end.

  (** fib.cpp:130-136 addOrUpdateNextHop, with the argument of the
      afterNewNextHop signal; the entry must exist *)
  Definition fib_add_nexthop (n : name) (f cost : N) (T : tables)
      : option (tables * option (name * nexthop)) :=
    match tr T !! n with
    | Some e =>
        match e_fib e with
        | Some fe =>
            let '(l, i, is_new) := add_or_update_nexthop f cost (fe_nexthops fe) in
            let T1 := upd n (set_fib (Some (FibEntry (fe_prefix fe) l))) T in
            if is_new then
              match l !! i with                    (* *it after the vector was sorted *)
              | Some h => Some (T1, Some (fe_prefix fe, h))
              | None => None
              end
            else Some (T1, None)
        | None => None
        end
    | None => None
    end.

  Inductive remove_result := NO_SUCH_NEXTHOP | NEXTHOP_REMOVED | FIB_ENTRY_REMOVED.
  (** fib.cpp:138-154 removeNextHop; the entry must exist *)
  Definition fib_remove_nexthop (n : name) (f : N) (T : tables) : option (tables * remove_result) :=
    match tr T !! n with
    | Some e =>
        match e_fib e with
        | Some fe =>
            match remove_nexthop f (fe_nexthops fe) with
            | None => Some (T, NO_SUCH_NEXTHOP)
            | Some [] => Some (fib_erase_nte n false
                                 (upd n (set_fib (Some (FibEntry (fe_prefix fe) []))) T), FIB_ENTRY_REMOVED)
            | Some l => Some (upd n (set_fib (Some (FibEntry (fe_prefix fe) l))) T, NEXTHOP_REMOVED)
            end
        | None => None
        end
    | None => None
    end.

  (** fib.cpp:45-72 findLongestPrefixMatch; s_emptyEntry has no prefix and no nexthops *)
  Definition has_fib (_ : name) (e : nte) : bool := match e_fib e with Some _ => true | None => false end.
  Definition fib_lpm (n : name) (T : tables) : fib_entry :=
    match t_lpm n has_fib (tr T) with
    | Some (_, e) => default (FibEntry [] []) (e_fib e)
    | None => FibEntry [] []
    end.
  (** fib.cpp:74-82 findExactMatch *)
  Definition fib_find (n : name) (T : tables) : option fib_entry :=
    match tr T !! n with Some e => e_fib e | None => None end.
End fib.

(** * PIT *)

(** pit-entry.cpp:67-78 canMatch(interest, nEqualNameComps); the assertion on the
    first components is the outcome None *)
Definition can_match (e : pit_entry) (i : interest) (n_equal : nat) : option bool :=
  let m := i_name (pe_interest e) in
  if name_eqb (take n_equal m) (take n_equal (i_name i)) then
    Some (name_eqb (drop n_equal m) (drop n_equal (i_name i)) &&
          Bool.eqb (i_cbp (pe_interest e)) (i_cbp i) &&
          Bool.eqb (i_mbf (pe_interest e)) (i_mbf i))
  else None.

(** pit.cpp:52-56: the depth of the name tree entry a PIT entry hangs on *)
Definition has_digest (n : name) : bool :=
  match last n with Some c => is_digest c | None => false end.
Definition nte_depth (n : name) : nat :=
  Nat.min (length n - (if has_digest n then 1 else 0)) MAX_DEPTH.
Definition pit_nte (n : name) : name := take (nte_depth n) n.

(** pit.cpp:70-76 find_if over the entries *)
Fixpoint pit_find_if (i : interest) (depth : nat) (l : list pit_entry) : option (option pit_entry) :=
  match l with
  | [] => Some None
  | e :: l' => match can_match e i depth with
               | None => None
               | Some true => Some (Some e)
               | Some false => pit_find_if i depth l'
               end
  end.

Definition new_pit_entry (i : interest) : pit_entry := PitEntry i [] [] false 0 None [].

(** pit.cpp:49-90 findOrInsert(interest, true): the tables, the entry, isNew *)
Definition pit_insert (i : interest) (T : tables) : option (tables * pit_entry * bool) :=
  let n := pit_nte (i_name i) in
  match lookup_nte n T with
  | None => None
  | Some T1 =>
      match tr T1 !! n with
      | None => None
      | Some e =>
          match pit_find_if i (nte_depth (i_name i)) (e_pit e) with
          | None => None
          | Some (Some pe) => Some (T1, pe, false)
          | Some None =>
              let pe := new_pit_entry i in
              Some (set_pit_n (inc64 (pit_n T1)) (upd n (set_pit (e_pit e ++ [pe])) T1), pe, true)
          end
      end
  end.
(** pit.cpp:49-90 findOrInsert(interest, false); line 82 asserts that the name tree
    entry is not empty *)
Definition pit_find (i : interest) (T : tables) : option (option pit_entry) :=
  let n := pit_nte (i_name i) in
  match tr T !! n with
  | None => Some None
  | Some e =>
      match pit_find_if i (nte_depth (i_name i)) (e_pit e) with
      | None => None
      | Some (Some pe) => Some (Some pe)
      | Some None => if t_is_empty has_tables n (tr T) then None else Some None
      end
  end.

(** pit.cpp:98-112 findAllDataMatches *)
Definition has_pit (_ : name) (e : nte) : bool := match e_pit e with [] => false | _ => true end.
Definition pit_all_data_matches (d : data) (T : tables) : list pit_entry :=
  concat (map (fun '(_, e) => List.filter (fun pe => matches_data (pe_interest pe) d) (e_pit e))
            (t_all_matches (d_name d) has_pit (tr T))).

Definition keyb (k k' : pit_key) : bool :=
  name_eqb (pk_name k) (pk_name k') && Bool.eqb (pk_cbp k) (pk_cbp k') && Bool.eqb (pk_mbf k) (pk_mbf k').

(** position of the entry a pointer points to *)
Fixpoint pit_index (k : pit_key) (l : list pit_entry) : option nat :=
  match l with
  | [] => None
  | e :: l' => if keyb k (pe_key e) then Some 0 else option_map S (pit_index k l')
  end.
(** name-tree-entry.cpp:95-109 erasePitEntry: overwrite with the last, then pop_back *)
Definition erase_pit_entry (k : pit_key) (l : list pit_entry) : option (list pit_entry) :=
  match pit_index k l, last l with
  | Some i, Some b => Some (removelast (<[i := b]> l))
  | _, _ => None
  end.
(** pit.cpp:114-125 erase(entry, true); the private canDeleteNte = false has no caller *)
Definition pit_erase (k : pit_key) (T : tables) : option tables :=
  let n := pit_nte (pk_name k) in
  match tr T !! n with
  | None => None
  | Some e =>
      match erase_pit_entry k (e_pit e) with
      | None => None
      | Some l => let T1 := erase_nte n (upd n (set_pit l) T) in
                  Some (set_pit_n (dec64 (pit_n T1)) T1)
      end
  end.

(** reading and writing through a pointer to a PIT entry *)
Definition pit_get (k : pit_key) (T : tables) : option pit_entry :=
  match tr T !! pit_nte (pk_name k) with
  | Some e => List.find (fun pe => keyb k (pe_key pe)) (e_pit e)
  | None => None
  end.
Definition pit_upd (k : pit_key) (f : pit_entry -> pit_entry) (T : tables) : tables :=
  upd (pit_nte (pk_name k))
    (fun e => set_pit (map (fun pe => if keyb k (pe_key pe) then f pe else pe) (e_pit e)) e) T.

(** pit-entry.cpp:32-42 FaceRecord::update; 10_days = 864000000 ms *)
Definition TEN_DAYS : Z := 864000000.
Definition record_update (i : interest) (t : Z) (r : face_record) : face_record :=
  FaceRecord (fr_face r) (i_nonce i) t (t + ns_of_ms (Z.min (i_lifetime i) TEN_DAYS)) (fr_info r).
Definition new_record (f : N) : face_record := FaceRecord f 0 0 0 [].

(** pit-entry.cpp:80-98 findInRecord, insertOrUpdateInRecord *)
Fixpoint in_update (f : N) (i : interest) (t : Z) (l : list in_record) : option (list in_record) :=
  match l with
  | [] => None
  | r :: l' => if (fr_face (ir_rec r) =? f)%N
               then Some (InRecord (record_update i t (ir_rec r)) i :: l')
               else option_map (cons r) (in_update f i t l')
  end.
Definition insert_or_update_in (f : N) (i : interest) (t : Z) (l : list in_record) : list in_record :=
  match in_update f i t l with
  | Some l' => l'
  | None => InRecord (record_update i t (new_record f)) i :: l
  end.
(** pit-entry.cpp:100-122 findOutRecord, insertOrUpdateOutRecord: the update does not
    touch m_incomingNack *)
Fixpoint out_update (f : N) (i : interest) (t : Z) (l : list out_record) : option (list out_record) :=
  match l with
  | [] => None
  | r :: l' => if (fr_face (or_rec r) =? f)%N
               then Some (OutRecord (record_update i t (or_rec r)) (or_nack r) :: l')
               else option_map (cons r) (out_update f i t l')
  end.
Definition insert_or_update_out (f : N) (i : interest) (t : Z) (l : list out_record) : list out_record :=
  match out_update f i t l with
  | Some l' => l'
  | None => OutRecord (record_update i t (new_record f)) None :: l
  end.
Definition find_in (f : N) (l : list in_record) : option in_record :=
  List.find (fun r => (fr_face (ir_rec r) =? f)%N) l.
Definition find_out (f : N) (l : list out_record) : option out_record :=
  List.find (fun r => (fr_face (or_rec r) =? f)%N) l.
(** erasing the first record of the face: pit-entry.hpp deleteInRecord at
    findInRecord, pit-entry.cpp:124-132 deleteOutRecord *)
Fixpoint delete_in (f : N) (l : list in_record) : list in_record :=
  match l with
  | [] => []
  | r :: l' => if (fr_face (ir_rec r) =? f)%N then l' else r :: delete_in f l'
  end.
Fixpoint delete_out (f : N) (l : list out_record) : list out_record :=
  match l with
  | [] => []
  | r :: l' => if (fr_face (or_rec r) =? f)%N then l' else r :: delete_out f l'
  end.
(** pit.cpp:127-139 deleteInOutRecords *)
Definition delete_in_out (f : N) (e : pit_entry) : pit_entry :=
  set_pe_out (delete_out f (pe_out e)) (set_pe_in (delete_in f (pe_in e)) e).
(** pit-entry.cpp:51-60 OutRecord::setIncomingNack *)
Definition set_incoming_nack (nonce reason : N) (r : out_record) : out_record * bool :=
  if (nonce =? fr_nonce (or_rec r))%N then (OutRecord (or_rec r) (Some reason), true) else (r, false).
Fixpoint out_nack (f nonce reason : N) (l : list out_record) : list out_record :=
  match l with
  | [] => []
  | r :: l' => if (fr_face (or_rec r) =? f)%N then (set_incoming_nack nonce reason r).1 :: l'
               else r :: out_nack f nonce reason l'
  end.

(** * Measurements *)

(** measurements.hpp getInitialLifetime = 4 s *)
Definition INITIAL_LIFETIME : Z := 4000000000.
(** measurements.cpp:39-55 get(nte) *)
Definition meas_get_nte (n : name) (T : tables) : option tables :=
  match tr T !! n with
  | None => None
  | Some e =>
      match e_meas e with
      | Some _ => Some T
      | None => Some (set_meas_n (inc64 (meas_n T))
                        (upd n (set_meas (Some (MeasEntry n (now T + INITIAL_LIFETIME)
                                                  (now T + INITIAL_LIFETIME) []))) T))
      end
  end.
(** measurements.cpp:57-62 get(name): the tables and the name of the entry *)
Definition meas_get (n : name) (T : tables) : option (tables * name) :=
  let p := take (Nat.min (length n) MAX_DEPTH) n in
  match lookup_nte p T with
  | None => None
  | Some T1 => match meas_get_nte p T1 with Some T2 => Some (T2, p) | None => None end
  end.
(** measurements.cpp:71-76 get(pitEntry) with name-tree.cpp:80-98 lookup(pitEntry) *)
Definition meas_get_pit (k : pit_key) (T : tables) : option (tables * name) :=
  let n := pk_name k in
  let p := if has_digest n && (length n <=? MAX_DEPTH)%nat then n else pit_nte n in
  match lookup_nte p T with
  | None => None
  | Some T1 => match meas_get_nte p T1 with Some T2 => Some (T2, p) | None => None end
  end.
(** measurements.cpp:78-89 getParent *)
Definition meas_get_parent (n : name) (T : tables) : option (tables * option name) :=
  match n with
  | [] => Some (T, None)
  | _ => let p := take (length n - 1) n in
         match meas_get_nte p T with Some T1 => Some (T1, Some p) | None => None end
  end.
(** measurements.cpp:91-117 findLongestPrefixMatch *)
Definition meas_lpm (n : name) (pred : meas_entry -> bool) (T : tables) : option meas_entry :=
  match t_lpm (take MAX_DEPTH n)
          (fun _ e => match e_meas e with Some m => pred m | None => false end) (tr T) with
  | Some (_, e) => e_meas e
  | None => None
  end.
(** measurements.cpp:126-140 extendLifetime; the entry must be attached *)
Definition meas_extend (n : name) (lifetime : Z) (T : tables) : option tables :=
  match tr T !! n with
  | Some e =>
      match e_meas e with
      | Some m =>
          let expiry := (now T + lifetime)%Z in
          if (expiry <=? me_expiry m)%Z then Some T
          else Some (upd n (set_meas (Some (MeasEntry (me_name m) expiry expiry (me_info m)))) T)
      | None => None
      end
  | None => None
  end.
(** measurements.cpp:142-151 cleanup *)
Definition meas_cleanup (n : name) (T : tables) : tables :=
  let T1 := erase_nte n (upd n (set_meas None) T) in
  set_meas_n (dec64 (meas_n T1)) T1.

(** the scheduler runs the cleanup of every entry whose time has come *)
Definition meas_due (T : tables) : list name :=
  omap (fun '(n, e) => match e_meas e with
                       | Some m => if (me_timer m <=? now T)%Z then Some n else None
                       | None => None
                       end) (map_to_list (tr T)).
Definition tick (d : Z) (T : tables) : tables :=
  let T1 := set_now (now T + d)%Z T in foldl (fun T n => meas_cleanup n T) T1 (meas_due T1).

(** * Strategy choice *)
Section sc.
  (** Strategy::create (fw/strategy.cpp:91-106): the instance name of the strategy
      made for a requested name *)
  Inductive create_result := Created (instance : name) | NotRegistered | CreateException.
  Variable create_strategy : name -> create_result.
  (** Strategy::areSameType (fw/strategy.cpp:108-112) on instance names *)
  Variable same_type : name -> name -> bool.

  Definition has_sc (_ : name) (e : nte) : bool := match e_sc e with Some _ => true | None => false end.
  (** strategy-choice.cpp:176-201 findEffectiveStrategy: the prefix whose entry
      applies and its strategy; None is the assertion *)
  Definition effective (n : name) (T : tables) : option (name * name) :=
    match t_lpm n has_sc (tr T) with
    | Some (p, e) => match e_sc e with Some s => Some (p, s) | None => None end
    | None => None
    end.

  (** strategy-choice.cpp:51-63 setDefaultStrategy *)
  Definition sc_set_default (req : name) (T : tables) : option tables :=
    match create_strategy req with
    | Created s =>
        match lookup_nte [] T with
        | Some T1 => Some (set_sc_n (inc64 (sc_n T1)) (upd [] (set_sc (Some s)) T1))
        | None => None
        end
    | _ => None                                     (* null pointer or uncaught exception *)
    end.

  (** strategy-choice.cpp:203-220 clearStrategyInfo *)
  Definition clear_record (r : face_record) : face_record :=
    FaceRecord (fr_face r) (fr_nonce r) (fr_renewed r) (fr_expiry r) [].
  Definition clear_pit_entry (e : pit_entry) : pit_entry :=
    PitEntry (pe_interest e)
      (map (fun r => InRecord (clear_record (ir_rec r)) (ir_interest r)) (pe_in e))
      (map (fun r => OutRecord (clear_record (or_rec r)) (or_nack r)) (pe_out e))
      (pe_satisfied e) (pe_fresh e) (pe_timer e) [].
  Definition clear_info (e : nte) : nte :=
    Nte (e_fib e) (map clear_pit_entry (e_pit e))
      (option_map (fun m => MeasEntry (me_name m) (me_expiry m) (me_timer m) []) (e_meas e))
      (e_sc e).

  (** strategy-choice.cpp:222-254 changeStrategy on the entry at [p] *)
  Definition change_strategy (p old_s new_s : name) (T : tables) : tables :=
    if same_type old_s new_s then T
    else
      let sel (q : name) (e : nte) : bool * bool :=
        if name_eqb q p then (true, true)
        else match e_sc e with Some _ => (false, false) | None => (true, true) end in
      set_tr (map_imap (fun q e => Some (if t_visited p sel (tr T) q then clear_info e else e)) (tr T)) T.

  Inductive insert_result := SC_OK | SC_NOT_REGISTERED | SC_EXCEPTION | SC_DEPTH_EXCEEDED.
  (** strategy-choice.cpp:65-110 insert *)
  Definition sc_insert (p req : name) (T : tables) : option (tables * insert_result) :=
    if (MAX_DEPTH <? length p)%nat then Some (T, SC_DEPTH_EXCEEDED)
    else
      match create_strategy req with
      | CreateException => Some (T, SC_EXCEPTION)
      | NotRegistered => Some (T, SC_NOT_REGISTERED)
      | Created s =>
          match lookup_nte p T with
          | None => None
          | Some T1 =>
              match tr T1 !! p with
              | None => None
              | Some e =>
                  match e_sc e with
                  | Some old_s =>
                      if name_eqb old_s s then Some (T1, SC_OK)
                      else Some (upd p (set_sc (Some s)) (change_strategy p old_s s T1), SC_OK)
                  | None =>
                      match effective p T1 with
                      | None => None
                      | Some (_, old_s) =>
                          (* the new entry is attached before changeStrategy; which
                             strategy it has does not matter there *)
                          let T2 := set_sc_n (inc64 (sc_n T1)) (upd p (set_sc (Some s)) T1) in
                          Some (change_strategy p old_s s T2, SC_OK)
                      end
                  end
              end
          end
      end.

  (** strategy-choice.cpp:135-158 erase *)
  Definition sc_erase (p : name) (T : tables) : option tables :=
    match p with
    | [] => None                                                     (* line 138 *)
    | _ =>
        match tr T !! p with
        | None => Some T
        | Some e =>
            match e_sc e with
            | None => Some T
            | Some old_s =>
                match effective (take (length p - 1) p) T with
                | None => None
                | Some (_, parent_s) =>
                    let T1 := change_strategy p old_s parent_s T in
                    let T2 := erase_nte p (upd p (set_sc None) T1) in
                    Some (set_sc_n (dec64 (sc_n T2)) T2)
                end
            end
        end
    end.
  (** strategy-choice.cpp:160-174 get *)
  Definition sc_get (p : name) (T : tables) : option name :=
    match tr T !! p with Some e => e_sc e | None => None end.
End sc.

(** * cleanup.cpp:32-61 cleanupOnFaceRemoval *)
Section cleanup.
  (** lines 37-51, for one name tree entry: Fib::removeNextHop leaves it in place *)
  Definition cleanup_nte (f : N) (e : nte) : nte :=
    let e1 := match e_fib e with
              | Some fe => match remove_nexthop f (fe_nexthops fe) with
                           | None => e
                           | Some [] => set_fib None e
                           | Some l => set_fib (Some (FibEntry (fe_prefix fe) l)) e
                           end
              | None => e
              end in
    set_pit (map (delete_in_out f) (e_pit e1)) e1.
  Definition cleanup_removed (f : N) (T : tables) : nat :=
    length (List.filter (fun '(_, e) => match e_fib e, e_fib (cleanup_nte f e) with
                                        | Some _, None => true
                                        | _, _ => false
                                        end) (map_to_list (tr T))).
  (** lines 53-60: multimap ordered by name length, in reverse; entries of equal
      length do not affect each other *)
  Definition not_shorter (a b : name) : Prop := (length b <= length a)%nat.
  Global Instance not_shorter_dec a b : Decision (not_shorter a b) := decide (length b <= length a)%nat.
  Definition longest_first (l : list name) : list name := merge_sort not_shorter l.
  Definition cleanup_on_face_removal (f : N) (T : tables) : option tables :=
    let t1 := cleanup_nte f <$> tr T in
    let maybe_empty := omap (fun '(n, e) => if has_tables e then None else Some n) (map_to_list t1) in
    let t2 := foldl (fun t n => t_erase_if_empty has_tables n false t) t1 (longest_first maybe_empty) in
    if existsb (fun n => t_is_empty has_tables n t2) (map fst (map_to_list t2)) then None
    else Some (set_fib_n ((fib_n T + (U64 - N.of_nat (cleanup_removed f T) mod U64)) mod U64)%N
                 (set_tr t2 T)).
End cleanup.

(** pit.cpp:30-42 Iterator::operator++, 141-145 begin: all PIT entries, NTE by NTE; the order
    among NTEs is the hash table's and is not modelled *)
Definition pit_entries (T : tables) : list pit_entry :=
  concat (map (fun '(_, e) => e_pit e) (map_to_list (tr T))).
(** fib.cpp:156-161 getRange: all FIB entries *)
Definition fib_entries (T : tables) : list fib_entry :=
  omap (fun '(_, e) => e_fib e) (map_to_list (tr T)).
