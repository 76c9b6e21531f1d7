(** The forwarder: daemon/fw/{forwarder,strategy,algorithm,unsolicited-data-policy,face-table}.{hpp,cpp},
    daemon/table/network-region-table.cpp and the parts of daemon/mgmt/fib-manager.cpp that change the FIB.

    A pipeline is a function from a state to a new state and a result; [None] is a
    failed BOOST_ASSERT or the use of a pointer to something that is gone.  A Face& is
    the FaceId of a face in the face table.  What is received and sent is appended
    to a log, newest first.  Sending a packet does not call back into the forwarder
    (transports report errors later), so a face cannot disappear inside a pipeline. *)
From stdpp Require Import gmap.
From Verif Require Import Lib Name_Model Packet_Model Nt_Model Tree_Model Tab_Model.
From Verif Require Cs_Model Dnl_Model.

(** * State *)

(** ndn::nfd::LinkType *)
Inductive link := LINK_P2P | LINK_MULTI_ACCESS | LINK_AD_HOC.
(** face/face.hpp: what pipelines read of a Face *)
Record face := Face { fc_local : bool; fc_link : link }.
Definition is_p2p (fc : face) : bool := match fc_link fc with LINK_P2P => true | _ => false end.
Definition is_adhoc (fc : face) : bool := match fc_link fc with LINK_AD_HOC => true | _ => false end.

(** face/face-common.hpp:44-55 *)
Definition INVALID_FACEID : N := 0.
Definition FACEID_RESERVED_MAX : N := 255.

(** lp::NackReason (ndn-cxx lp/nack-header.hpp) *)
Definition NACK_NONE : N := 0.
Definition NACK_CONGESTION : N := 50.
Definition NACK_DUPLICATE : N := 100.
Definition NACK_NO_ROUTE : N := 150.

(** unsolicited-data-policy.hpp: the four registered policies *)
Inductive unsol_policy := DropAll | AdmitLocal | AdmitNetwork | AdmitAll.

(** packets in and out; the last argument of [Tx_data] is the PIT token attached *)
Inductive io :=
| Rx_interest (f : N) (i : interest)
| Rx_data (f : N) (d : data)
| Rx_nack (f : N) (i : interest) (reason : N)
| Tx_interest (f : N) (i : interest)
| Tx_data (f : N) (d : data) (token : option N)
| Tx_nack (f : N) (i : interest) (reason : N).

(** forwarder-counters.hpp *)
Record counters := Counters {
  c_in_interests : N; c_out_interests : N;
  c_in_data : N; c_out_data : N;
  c_in_nacks : N; c_out_nacks : N;
  c_satisfied : N; c_unsatisfied : N;
  c_unsolicited : N; c_cs_hits : N; c_cs_misses : N;
  c_in_hop0 : list N; c_out_hop0 : list N;     (* nInHopLimitZero, nOutHopLimitZero of faces: one item per drop *)
}.
Definition no_counters : counters := Counters 0 0 0 0 0 0 0 0 0 0 0 [] [].

Record fw := Fw {
  fw_t : tables;                 (* name tree, FIB, PIT, measurements, strategy choice, clock *)
  fw_cs : Cs_Model.cs;
  fw_dnl : Dnl_Model.dnl;
  fw_faces : gmap N face;        (* FaceTable::m_faces *)
  fw_last : N;                   (* FaceTable::m_lastFaceId *)
  fw_regions : list name;        (* NetworkRegionTable *)
  fw_unsol : unsol_policy;       (* m_unsolicitedDataPolicy *)
  fw_hop : N;                    (* m_config.defaultHopLimit *)
  fw_cnt : counters;
  fw_rand : nat;                 (* random numbers used so far *)
  fw_priv : sinfo;               (* members of strategy objects *)
  fw_log : list io;
}.
Definition set_t T s := Fw T (fw_cs s) (fw_dnl s) (fw_faces s) (fw_last s) (fw_regions s) (fw_unsol s) (fw_hop s) (fw_cnt s) (fw_rand s) (fw_priv s) (fw_log s).
Definition set_cs c s := Fw (fw_t s) c (fw_dnl s) (fw_faces s) (fw_last s) (fw_regions s) (fw_unsol s) (fw_hop s) (fw_cnt s) (fw_rand s) (fw_priv s) (fw_log s).
Definition set_dnl d s := Fw (fw_t s) (fw_cs s) d (fw_faces s) (fw_last s) (fw_regions s) (fw_unsol s) (fw_hop s) (fw_cnt s) (fw_rand s) (fw_priv s) (fw_log s).
Definition set_faces l n s := Fw (fw_t s) (fw_cs s) (fw_dnl s) l n (fw_regions s) (fw_unsol s) (fw_hop s) (fw_cnt s) (fw_rand s) (fw_priv s) (fw_log s).
Definition set_regions r s := Fw (fw_t s) (fw_cs s) (fw_dnl s) (fw_faces s) (fw_last s) r (fw_unsol s) (fw_hop s) (fw_cnt s) (fw_rand s) (fw_priv s) (fw_log s).
Definition set_unsol u s := Fw (fw_t s) (fw_cs s) (fw_dnl s) (fw_faces s) (fw_last s) (fw_regions s) u (fw_hop s) (fw_cnt s) (fw_rand s) (fw_priv s) (fw_log s).
Definition set_hop h s := Fw (fw_t s) (fw_cs s) (fw_dnl s) (fw_faces s) (fw_last s) (fw_regions s) (fw_unsol s) h (fw_cnt s) (fw_rand s) (fw_priv s) (fw_log s).
Definition set_cnt c s := Fw (fw_t s) (fw_cs s) (fw_dnl s) (fw_faces s) (fw_last s) (fw_regions s) (fw_unsol s) (fw_hop s) c (fw_rand s) (fw_priv s) (fw_log s).
Definition set_rand r s := Fw (fw_t s) (fw_cs s) (fw_dnl s) (fw_faces s) (fw_last s) (fw_regions s) (fw_unsol s) (fw_hop s) (fw_cnt s) r (fw_priv s) (fw_log s).
Definition set_priv p s := Fw (fw_t s) (fw_cs s) (fw_dnl s) (fw_faces s) (fw_last s) (fw_regions s) (fw_unsol s) (fw_hop s) (fw_cnt s) (fw_rand s) p (fw_log s).
Definition set_log l s := Fw (fw_t s) (fw_cs s) (fw_dnl s) (fw_faces s) (fw_last s) (fw_regions s) (fw_unsol s) (fw_hop s) (fw_cnt s) (fw_rand s) (fw_priv s) l.

(** * Sequencing *)
Definition M (A : Type) : Type := fw -> option (fw * A).
Definition ret {A} (a : A) : M A := fun s => Some (s, a).
Definition fail {A} : M A := fun _ => None.
Definition bind {A B} (m : M A) (k : A -> M B) : M B :=
  fun s => match m s with Some (s', a) => k a s' | None => None end.
Notation "'let!' x := m 'in' k" := (bind m (fun x => k)) (at level 200, x name, m at level 100, k at level 200).
Notation "m1 ;; m2" := (bind m1 (fun _ => m2)) (at level 100, m2 at level 200, right associativity).
Definition get : M fw := fun s => Some (s, s).
Definition put (f : fw -> fw) : M unit := fun s => Some (f s, tt).
(** an operation on the tables *)
Definition tab (f : tables -> option tables) : M unit :=
  fun s => match f (fw_t s) with Some T => Some (set_t T s, tt) | None => None end.
Definition emit (x : io) : M unit := put (fun s => set_log (x :: fw_log s) s).
(** ++m_counters.x; SimpleCounter is a uint64_t *)
Definition count (f : counters -> counters) : M unit := put (fun s => set_cnt (f (fw_cnt s)) s).
Fixpoint each {A} (l : list A) (f : A -> M unit) : M unit :=
  match l with [] => ret tt | x :: l' => f x ;; each l' f end.

Definition inc_in_interests c := Counters (inc64 (c_in_interests c)) (c_out_interests c) (c_in_data c) (c_out_data c) (c_in_nacks c) (c_out_nacks c) (c_satisfied c) (c_unsatisfied c) (c_unsolicited c) (c_cs_hits c) (c_cs_misses c) (c_in_hop0 c) (c_out_hop0 c).
Definition inc_out_interests c := Counters (c_in_interests c) (inc64 (c_out_interests c)) (c_in_data c) (c_out_data c) (c_in_nacks c) (c_out_nacks c) (c_satisfied c) (c_unsatisfied c) (c_unsolicited c) (c_cs_hits c) (c_cs_misses c) (c_in_hop0 c) (c_out_hop0 c).
Definition inc_in_data c := Counters (c_in_interests c) (c_out_interests c) (inc64 (c_in_data c)) (c_out_data c) (c_in_nacks c) (c_out_nacks c) (c_satisfied c) (c_unsatisfied c) (c_unsolicited c) (c_cs_hits c) (c_cs_misses c) (c_in_hop0 c) (c_out_hop0 c).
Definition inc_out_data c := Counters (c_in_interests c) (c_out_interests c) (c_in_data c) (inc64 (c_out_data c)) (c_in_nacks c) (c_out_nacks c) (c_satisfied c) (c_unsatisfied c) (c_unsolicited c) (c_cs_hits c) (c_cs_misses c) (c_in_hop0 c) (c_out_hop0 c).
Definition inc_in_nacks c := Counters (c_in_interests c) (c_out_interests c) (c_in_data c) (c_out_data c) (inc64 (c_in_nacks c)) (c_out_nacks c) (c_satisfied c) (c_unsatisfied c) (c_unsolicited c) (c_cs_hits c) (c_cs_misses c) (c_in_hop0 c) (c_out_hop0 c).
Definition inc_out_nacks c := Counters (c_in_interests c) (c_out_interests c) (c_in_data c) (c_out_data c) (c_in_nacks c) (inc64 (c_out_nacks c)) (c_satisfied c) (c_unsatisfied c) (c_unsolicited c) (c_cs_hits c) (c_cs_misses c) (c_in_hop0 c) (c_out_hop0 c).
Definition inc_satisfied c := Counters (c_in_interests c) (c_out_interests c) (c_in_data c) (c_out_data c) (c_in_nacks c) (c_out_nacks c) (inc64 (c_satisfied c)) (c_unsatisfied c) (c_unsolicited c) (c_cs_hits c) (c_cs_misses c) (c_in_hop0 c) (c_out_hop0 c).
Definition inc_unsatisfied c := Counters (c_in_interests c) (c_out_interests c) (c_in_data c) (c_out_data c) (c_in_nacks c) (c_out_nacks c) (c_satisfied c) (inc64 (c_unsatisfied c)) (c_unsolicited c) (c_cs_hits c) (c_cs_misses c) (c_in_hop0 c) (c_out_hop0 c).
Definition inc_unsolicited c := Counters (c_in_interests c) (c_out_interests c) (c_in_data c) (c_out_data c) (c_in_nacks c) (c_out_nacks c) (c_satisfied c) (c_unsatisfied c) (inc64 (c_unsolicited c)) (c_cs_hits c) (c_cs_misses c) (c_in_hop0 c) (c_out_hop0 c).
Definition inc_cs_hits c := Counters (c_in_interests c) (c_out_interests c) (c_in_data c) (c_out_data c) (c_in_nacks c) (c_out_nacks c) (c_satisfied c) (c_unsatisfied c) (c_unsolicited c) (inc64 (c_cs_hits c)) (c_cs_misses c) (c_in_hop0 c) (c_out_hop0 c).
Definition inc_cs_misses c := Counters (c_in_interests c) (c_out_interests c) (c_in_data c) (c_out_data c) (c_in_nacks c) (c_out_nacks c) (c_satisfied c) (c_unsatisfied c) (c_unsolicited c) (c_cs_hits c) (inc64 (c_cs_misses c)) (c_in_hop0 c) (c_out_hop0 c).
Definition inc_in_hop0 f c := Counters (c_in_interests c) (c_out_interests c) (c_in_data c) (c_out_data c) (c_in_nacks c) (c_out_nacks c) (c_satisfied c) (c_unsatisfied c) (c_unsolicited c) (c_cs_hits c) (c_cs_misses c) (f :: c_in_hop0 c) (c_out_hop0 c).
Definition inc_out_hop0 f c := Counters (c_in_interests c) (c_out_interests c) (c_in_data c) (c_out_data c) (c_in_nacks c) (c_out_nacks c) (c_satisfied c) (c_unsatisfied c) (c_unsolicited c) (c_cs_hits c) (c_cs_misses c) (c_in_hop0 c) (f :: c_out_hop0 c).

(** * Packets *)
(** Interest::setHopLimit, setForwardingHint({}), removeTag<PitToken>, setNonce, NonDiscoveryTag *)
Definition with_hop (h : option N) (i : interest) : interest :=
  Interest (i_name i) (i_cbp i) (i_mbf i) (i_nonce i) (i_lifetime i) h (i_hint i) (i_nexthop i) (i_token i) (i_nondisc i).
Definition without_hint (i : interest) : interest :=
  Interest (i_name i) (i_cbp i) (i_mbf i) (i_nonce i) (i_lifetime i) (i_hop i) [] (i_nexthop i) (i_token i) (i_nondisc i).
Definition without_token (i : interest) : interest :=
  Interest (i_name i) (i_cbp i) (i_mbf i) (i_nonce i) (i_lifetime i) (i_hop i) (i_hint i) (i_nexthop i) None (i_nondisc i).
Definition with_nonce (x : N) (i : interest) : interest :=
  Interest (i_name i) (i_cbp i) (i_mbf i) x (i_lifetime i) (i_hop i) (i_hint i) (i_nexthop i) (i_token i) (i_nondisc i).
Definition with_nondisc (i : interest) : interest :=
  Interest (i_name i) (i_cbp i) (i_mbf i) (i_nonce i) (i_lifetime i) (i_hop i) (i_hint i) (i_nexthop i) (i_token i) true.

(** daemon/fw/scope-prefix.hpp (daemon/common in older trees): /localhost and /localhop *)
Definition LOCALHOST : name := [(T_GENERIC, [108; 111; 99; 97; 108; 104; 111; 115; 116]%N)].
Definition LOCALHOP : name := [(T_GENERIC, [108; 111; 99; 97; 108; 104; 111; 112]%N)].
Definition is_localhost (n : name) : bool := name_prefixb LOCALHOST n.
Definition is_localhop (n : name) : bool := name_prefixb LOCALHOP n.

(** * algorithm.cpp *)

(** algorithm.cpp:32-52 wouldViolateScope *)
Definition would_violate_scope (infc : face) (i : interest) (outfc : face) : bool :=
  if fc_local outfc then false
  else if is_localhost (i_name i) then true
  else if is_localhop (i_name i) then negb (fc_local infc)
  else false.

(** algorithm.hpp:40-46, algorithm.cpp:54-82 findDuplicateNonce; the four bits *)
Record dup_nonce := DupNonce { dn_in_same : bool; dn_in_other : bool; dn_out_same : bool; dn_out_other : bool }.
Definition find_duplicate_nonce (e : pit_entry) (nonce f : N) : dup_nonce :=
  let ins same r := (fr_nonce (ir_rec r) =? nonce)%N && Bool.eqb (fr_face (ir_rec r) =? f)%N same in
  let outs same r := (fr_nonce (or_rec r) =? nonce)%N && Bool.eqb (fr_face (or_rec r) =? f)%N same in
  DupNonce (existsb (ins true) (pe_in e)) (existsb (ins false) (pe_in e))
    (existsb (outs true) (pe_out e)) (existsb (outs false) (pe_out e)).

(** algorithm.cpp:84-93 hasPendingOutRecords *)
Definition has_pending_out (t : Z) (e : pit_entry) : bool :=
  existsb (fun r => (t <=? fr_expiry (or_rec r))%Z && match or_nack r with None => true | Some _ => false end) (pe_out e).

(** std::max_element / std::min_element: the first extreme element *)
Fixpoint max_by {A} (lt : A -> A -> bool) (best : A) (l : list A) : A :=
  match l with [] => best | x :: l' => max_by lt (if lt best x then x else best) l' end.

(** algorithm.cpp:95-106 getLastOutgoing; None is the assertion *)
Definition get_last_outgoing (e : pit_entry) : option Z :=
  match pe_out e with
  | [] => None
  | r :: l => Some (fr_renewed (or_rec (max_by (fun a b => (fr_renewed (or_rec a) <? fr_renewed (or_rec b))%Z) r l)))
  end.

(** algorithm.cpp:130-152 isNextHopEligible; [want] is wantUnused with its time *)
Definition next_hop_eligible (faces : gmap N face) (f : N) (i : interest) (nh : nexthop) (e : pit_entry) (want : option Z) : bool :=
  match faces !! f, faces !! nh_face nh with
  | Some infc, Some outfc =>
      if ((nh_face nh =? f)%N && negb (is_adhoc outfc)) || would_violate_scope infc i outfc then false
      else match want with
           | None => true
           | Some t => match find_out (nh_face nh) (pe_out e) with
                       | Some r => negb (t <? fr_expiry (or_rec r))%Z
                       | None => true
                       end
           end
  | _, _ => false
  end.

(** algorithm.cpp:108-128 findEligibleNextHopWithEarliestOutRecord; the outer None is the
    assertion, time_point::max() is the empty [best] *)
Fixpoint earliest_out (faces : gmap N face) (f : N) (i : interest) (l : list nexthop) (e : pit_entry)
    (best : option (nexthop * Z)) : option (option nexthop) :=
  match l with
  | [] => Some (fst <$> best)
  | nh :: l' =>
      if negb (next_hop_eligible faces f i nh e None) then earliest_out faces f i l' e best
      else match find_out (nh_face nh) (pe_out e) with
           | None => None
           | Some r =>
               let t := fr_renewed (or_rec r) in
               let better := match best with None => true | Some (_, b) => (t <? b)%Z end in
               earliest_out faces f i l' e (if better then Some (nh, t) else best)
           end
  end.

(** network-region-table.cpp:30-41 isInProducerRegion *)
Definition in_producer_region (hint regions : list name) : bool :=
  existsb (fun r => existsb (fun d => name_prefixb d r) hint) regions.

(** strategy.cpp:298-334 lookupFib; None is one of its assertions *)
Fixpoint lookup_fib_hint (T : tables) (hint : list name) (last : option fib_entry) : option fib_entry :=
  match hint with
  | [] => match last with                                      (* line 332 *)
          | Some fe => match fe_prefix fe with [] => Some fe | _ => None end
          | None => None
          end
  | d :: hint' =>
      let fe := fib_lpm d T in
      match fe_nexthops fe with
      | _ :: _ => Some fe
      | [] => match fe_prefix fe with                          (* line 330 *)
              | [] => lookup_fib_hint T hint' (Some fe)
              | _ => None
              end
      end
  end.
Definition lookup_fib (s : fw) (e : pit_entry) : option fib_entry :=
  match i_hint (pe_interest e) with
  | [] => Some (fib_lpm (i_name (pe_interest e)) (fw_t s))
  | hint => if in_producer_region hint (fw_regions s) then None   (* line 315 *)
            else lookup_fib_hint (fw_t s) hint None
  end.

(** unsolicited-data-policy.cpp:71-105 decide *)
Definition unsol_decide (p : unsol_policy) (fc : face) : bool :=
  match p with
  | DropAll => false
  | AdmitLocal => fc_local fc
  | AdmitNetwork => negb (fc_local fc)
  | AdmitAll => true
  end.

(** * Strategies *)

(** which Interest a strategy forwards: the one that triggered it, the PIT entry's, or
    an in-record's *)
Inductive isrc := Trigger | OfEntry | OfInRecord (f : N).

(** A strategy trigger as a tree of calls of the protected interface of class Strategy
    (strategy.hpp:290-420).  [PRead] reads anything; [PPriv] changes members of the
    strategy object.  A strategy that forwards some Interest it made up, or returns Data by
    other means than sendDataToAll, cannot be written; no strategy in the tree does. *)
Inductive sprog :=
| PDone
| PFail                                                           (* an assertion in the strategy *)
| PRead (q : fw -> sprog)
| PRand (q : nat -> sprog)
| PInterest (src : isrc) (nonce : option N) (nondisc : bool) (f : N) (q : bool -> sprog)   (* sendInterest *)
| PDataToAll (d : data) (f : N) (q : sprog)                       (* sendDataToAll *)
| PNack (reason f : N) (q : sprog)                                (* sendNack *)
| PTimer (ms : Z) (q : sprog)                                     (* setExpiryTimer, rejectPendingInterest *)
| PInfo (si : sinfo) (q : sprog)                                  (* strategy info of the entry *)
| PInInfo (f : N) (si : sinfo) (q : sprog)
| POutInfo (f : N) (si : sinfo) (q : sprog)
| PMeasGet (n : name) (q : sprog)
| PMeasExtend (n : name) (life : Z) (q : sprog)
| PMeasInfo (n : name) (si : sinfo) (q : sprog)
| PPriv (p : sinfo) (q : sprog).

(** strategy.hpp:170-290: the triggers.  [st_loop_nack]: onInterestLoop answers Nack-Duplicate
    (strategy.cpp:176-182) or does nothing (multicast-strategy.hpp:51-55).
    [st_data]: afterReceiveData if overridden.  [st_async]: what the strategy's own timers and
    posted callbacks do.  afterContentStoreHit and onDroppedInterest are not overridden by any
    strategy. *)
Record strategy := Strategy {
  st_loop_nack : bool;
  st_interest : interest -> N -> pit_key -> sprog;
  st_before : data -> N -> pit_key -> sprog;
  st_data : option (data -> N -> pit_key -> sprog);
  st_nack : interest -> N -> N -> pit_key -> sprog;
  st_newhop : nexthop -> pit_key -> sprog;
  st_async : list Z -> pit_key -> sprog;
}.

(** * Pipelines *)
Section fw.
  Variable sort_nexthops : list nexthop -> list nexthop.
  Variable create_strategy : name -> create_result.
  Variable same_type : name -> name -> bool.
  Variable make_entry : name -> N -> Dnl_Model.fingerprint.
  (** random number engines, and the choices hash tables make *)
  Variable rand : nat -> nat.
  (** iteration order of std::set<Face*> and std::unordered_set<Face*> *)
  Variable face_order : list N -> list N.
  (** the strategy object with an instance name *)
  Variable strategies : name -> strategy.

  (** dead-nonce-list.hpp:129 DEFAULT_LIFETIME *)
  Definition DNL_LIFETIME : Z := 6000000000.

  Definition entry (k : pit_key) : M pit_entry :=
    fun s => match pit_get k (fw_t s) with Some e => Some (s, e) | None => None end.
  Definition face_of (f : N) : M face :=
    fun s => match fw_faces s !! f with Some fc => Some (s, fc) | None => None end.
  Definition upd_entry (k : pit_key) (g : pit_entry -> pit_entry) : M unit :=
    entry k ;; tab (fun T => Some (pit_upd k g T)).
  Definition next_rand : M nat := fun s => Some (set_rand (S (fw_rand s)) s, rand (fw_rand s)).

  (** forwarder.cpp:564-572 setExpiryTimer *)
  Definition set_expiry (k : pit_key) (ms : Z) : M unit :=
    let! s := get in
    upd_entry k (fun e => PitEntry (pe_interest e) (pe_in e) (pe_out e) (pe_satisfied e) (pe_fresh e)
                            (Some (now (fw_t s) + ns_of_ms (Z.max ms 0))%Z) (pe_info e)).

  (** pitEntry->isSatisfied = true; pitEntry->dataFreshnessPeriod = ... *)
  Definition mark_satisfied (k : pit_key) (fresh : Z) : M unit :=
    upd_entry k (fun e => PitEntry (pe_interest e) (pe_in e) (pe_out e) true fresh (pe_timer e) (pe_info e)).

  (** forwarder.cpp:574-603 insertDeadNonceList *)
  Definition dnl_nonces (upstream : option N) (e : pit_entry) : list N :=
    match upstream with
    | None => map (fun r => fr_nonce (or_rec r)) (pe_out e)
    | Some f => match find_out f (pe_out e) with Some r => [fr_nonce (or_rec r)] | None => [] end
    end.
  Definition insert_dead_nonce_list (k : pit_key) (upstream : option N) : M unit :=
    let! e := entry k in
    if pe_satisfied e && (pe_fresh e <? 0)%Z then fail
    else if negb (pe_satisfied e) || (i_mbf (pe_interest e) && (ns_of_ms (pe_fresh e) <? DNL_LIFETIME)%Z)
    then each (dnl_nonces upstream e)
           (fun x => let! c := next_rand in
                     put (fun s => set_dnl (Dnl_Model.dnl_add make_entry (fw_dnl s) (pk_name k) x c) s))
    else ret tt.

  (** forwarder.cpp:247-274 onOutgoingInterest: whether an out-record was made *)
  Definition on_outgoing_interest (i : interest) (f : N) (k : pit_key) : M bool :=
    let! fc := face_of f in
    if (match i_hop i with Some h => (h =? 0)%N | None => false end) && negb (fc_local fc) then
      count (inc_out_hop0 f) ;; ret false
    else
      let! s := get in
      upd_entry k (fun e => set_pe_out (insert_or_update_out f i (now (fw_t s)) (pe_out e)) e) ;;
      emit (Tx_interest f i) ;;
      count inc_out_interests ;; ret true.

  (** forwarder.cpp:408-432 onOutgoingData.  The first test is for a face that is gone *)
  Definition on_outgoing_data (d : data) (token : option N) (f : N) : M bool :=
    let! s := get in
    match fw_faces s !! f with
    | None => ret false
    | Some fc =>
        if negb (fc_local fc) && is_localhost (d_name d) then ret false
        else emit (Tx_data f d token) ;; count inc_out_data ;; ret true
    end.

  (** forwarder.cpp:489-532 onOutgoingNack *)
  Definition on_outgoing_nack (reason f : N) (k : pit_key) : M bool :=
    let! s := get in
    match fw_faces s !! f with
    | None => ret false
    | Some fc =>
        let! e := entry k in
        match find_in f (pe_in e) with
        | None => ret false
        | Some r =>
            if negb (is_p2p fc) then ret false
            else
              upd_entry k (fun e => set_pe_in (delete_in f (pe_in e)) e) ;;
              emit (Tx_nack f (ir_interest r) reason) ;;
              count inc_out_nacks ;; ret true
        end
    end.

  (** strategy.cpp:232-252 sendData; [token] is the PIT token tag of the Data object *)
  Definition send_data (d : data) (token : option N) (f : N) (k : pit_key) : M bool :=
    let! e := entry k in
    if negb (matches_data (pe_interest e) d) then fail
    else
      match find_in f (pe_in e) with
      | Some r =>
          upd_entry k (fun e => set_pe_in (delete_in f (pe_in e)) e) ;;
          match i_token (ir_interest r) with
          | Some t => on_outgoing_data d (Some t) f
          | None => on_outgoing_data d token f
          end
      | None => on_outgoing_data d token f
      end.

  (** strategy.cpp:254-274 sendDataToAll; received Data carries no PIT token.  The set of
      faces is the list of faces of the in-records, of which a face has at most one *)
  Definition pending_downstreams (t : Z) (e : pit_entry) : list N :=
    map (fun r => fr_face (ir_rec r)) (List.filter (fun r => (t <? fr_expiry (ir_rec r))%Z) (pe_in e)).
  Definition not_back (faces : gmap N face) (f g : N) : bool :=
    negb ((g =? f)%N && negb (match faces !! g with Some fc => is_adhoc fc | None => false end)).
  Definition send_data_to_all (d : data) (f : N) (k : pit_key) : M unit :=
    let! s := get in
    let! e := entry k in
    each (face_order (List.filter (not_back (fw_faces s) f) (pending_downstreams (now (fw_t s)) e)))
      (fun g => send_data d None g k ;; ret tt).

  (** strategy.cpp:221-230 sendInterest of the selected Interest *)
  Definition the_interest (trigger : option interest) (k : pit_key) (src : isrc) : M interest :=
    match src with
    | Trigger => match trigger with Some i => ret i | None => fail end
    | OfEntry => let! e := entry k in ret (pe_interest e)
    | OfInRecord f => let! e := entry k in
                      match find_in f (pe_in e) with Some r => ret (ir_interest r) | None => fail end
    end.
  Definition send_interest (trigger : option interest) (src : isrc) (nonce : option N) (nondisc : bool)
      (f : N) (k : pit_key) : M bool :=
    let! i := the_interest trigger k src in
    let i1 := match nonce with Some x => with_nonce x i | None => i end in
    let i2 := if nondisc then with_nondisc i1 else i1 in
    on_outgoing_interest (without_token i2) f k.

  (** running a strategy program on PIT entry [k] *)
  Fixpoint run (trigger : option interest) (k : pit_key) (p : sprog) : M unit :=
    match p with
    | PDone => ret tt
    | PFail => fail
    | PRead q => let! s := get in run trigger k (q s)
    | PRand q => let! r := next_rand in run trigger k (q r)
    | PInterest src nonce nd f q => let! b := send_interest trigger src nonce nd f k in run trigger k (q b)
    | PDataToAll d f q => send_data_to_all d f k ;; run trigger k q
    | PNack reason f q => on_outgoing_nack reason f k ;; run trigger k q
    | PTimer ms q => set_expiry k ms ;; run trigger k q
    | PInfo si q => upd_entry k (fun e => PitEntry (pe_interest e) (pe_in e) (pe_out e) (pe_satisfied e) (pe_fresh e) (pe_timer e) si) ;; run trigger k q
    | PInInfo f si q => upd_entry k (fun e => set_pe_in (map (fun r => if (fr_face (ir_rec r) =? f)%N then InRecord (FaceRecord (fr_face (ir_rec r)) (fr_nonce (ir_rec r)) (fr_renewed (ir_rec r)) (fr_expiry (ir_rec r)) si) (ir_interest r) else r) (pe_in e)) e) ;; run trigger k q
    | POutInfo f si q => upd_entry k (fun e => set_pe_out (map (fun r => if (fr_face (or_rec r) =? f)%N then OutRecord (FaceRecord (fr_face (or_rec r)) (fr_nonce (or_rec r)) (fr_renewed (or_rec r)) (fr_expiry (or_rec r)) si) (or_nack r) else r) (pe_out e)) e) ;; run trigger k q
    | PMeasGet n q => tab (fun T => fst <$> meas_get n T) ;; run trigger k q
    | PMeasExtend n life q => tab (meas_extend n life) ;; run trigger k q
    | PMeasInfo n si q => tab (fun T => match (match tr T !! n with Some e => e_meas e | None => None end) with
                                        | Some _ => Some (upd n (fun e => set_meas (option_map (fun m => MeasEntry (me_name m) (me_expiry m) (me_timer m) si) (e_meas e)) e) T)
                                        | None => None
                                        end) ;; run trigger k q
    | PPriv p q => put (set_priv p) ;; run trigger k q
    end.

  (** StrategyChoice::findEffectiveStrategy *)
  Definition strategy_for (n : name) : M strategy :=
    fun s => match effective n (fw_t s) with
             | Some (_, inst) => Some (s, strategies inst)
             | None => None
             end.

  (** forwarder.cpp:165-180 onInterestLoop, strategy.cpp:176-182, strategy.hpp:363-369 *)
  Definition on_interest_loop (i : interest) (f : N) : M unit :=
    let! fc := face_of f in
    if negb (is_p2p fc) then ret tt
    else
      let! st := strategy_for (i_name i) in
      if st_loop_nack st then emit (Tx_nack f i NACK_DUPLICATE) ;; count inc_out_nacks else ret tt.

  (** forwarder.cpp:192-202: when the last in-record expires, in milliseconds from now;
      duration_cast truncates *)
  Definition last_expiry_ms (t : Z) (e : pit_entry) : option Z :=
    match pe_in e with
    | [] => None
    | r :: l => Some (Z.quot (fr_expiry (ir_rec (max_by (fun a b => (fr_expiry (ir_rec a) <? fr_expiry (ir_rec b))%Z) r l)) - t) NS_PER_MS)
    end.

  (** forwarder.cpp:182-223 onContentStoreMiss.  The Interest object is also the one in the PIT
      entry if it created the entry ([is_new]), so setHopLimit changes that one too *)
  Definition on_cs_miss (i : interest) (f : N) (k : pit_key) (is_new : bool) : M unit :=
    count inc_cs_misses ;;
    let! s := get in
    let add_hop := (0 <? fw_hop s)%N && match i_hop i with None => true | Some _ => false end in
    let i1 := if add_hop then with_hop (Some (fw_hop s)) i else i in
    (if add_hop && is_new
     then upd_entry k (fun e => PitEntry (with_hop (Some (fw_hop s)) (pe_interest e)) (pe_in e) (pe_out e) (pe_satisfied e) (pe_fresh e) (pe_timer e) (pe_info e))
     else ret tt) ;;
    upd_entry k (fun e => set_pe_in (insert_or_update_in f i1 (now (fw_t s)) (pe_in e)) e) ;;
    let! e := entry k in
    match last_expiry_ms (now (fw_t s)) e with
    | None => fail
    | Some ms =>
        set_expiry k ms ;;
        match i_nexthop i1 with
        | Some g =>
            let! s1 := get in
            match fw_faces s1 !! g with
            | Some _ => on_outgoing_interest i1 g k ;; ret tt
            | None => ret tt
            end
        | None =>
            let! st := strategy_for (pk_name k) in
            run (Some i1) k (st_interest st i1 f k)
        end
    end.

  (** forwarder.cpp:225-245 onContentStoreHit, strategy.cpp:184-189 afterContentStoreHit.  The
      PIT token of the Interest is set on the Data *)
  Definition on_cs_hit (i : interest) (f : N) (k : pit_key) (d : data) : M unit :=
    count inc_cs_hits ;;
    mark_satisfied k (d_fresh d) ;;
    set_expiry k 0 ;;
    strategy_for (pk_name k) ;;
    send_data d (i_token i) f k ;; ret tt.

  (** forwarder.cpp:89-163 onIncomingInterest *)
  Definition on_incoming_interest (i : interest) (f : N) : M unit :=
    emit (Rx_interest f i) ;;
    count inc_in_interests ;;
    let! fc := face_of f in
    if match i_hop i with Some h => (h =? 0)%N | None => false end then count (inc_in_hop0 f)
    else
      let i1 := match i_hop i with Some h => with_hop (Some (h - 1)%N) i | None => i end in
      if negb (fc_local fc) && is_localhost (i_name i1) then ret tt
      else
        let! s := get in
        if Dnl_Model.dnl_has make_entry (fw_dnl s) (i_name i1) (i_nonce i1) then on_interest_loop i1 f
        else
          let i2 := match i_hint i1 with
                    | [] => i1
                    | hint => if in_producer_region hint (fw_regions s) then without_hint i1 else i1
                    end in
          let! x := (fun s => match pit_insert i2 (fw_t s) with
                              | Some (T, e, is_new) => Some (set_t T s, (e, is_new))
                              | None => None
                              end) in
          let '(e, is_new) := x in
          let k := pe_key e in
          let dn := find_duplicate_nonce e (i_nonce i2) f in
          let dup := dn_in_same dn || dn_in_other dn || dn_out_same dn || dn_out_other dn in
          let dup := if is_p2p fc then dup && negb (dn_in_same dn) else dup in
          if dup then on_interest_loop i2 f
          else
            match pe_in e with
            | [] =>
                let! r := (fun s => match Cs_Model.cs_find (now (fw_t s)) i2 (fw_cs s) with
                                    | Some (c, r) => Some (set_cs c s, r)
                                    | None => None
                                    end) in
                match r with
                | Some d => on_cs_hit i2 f k d
                | None => on_cs_miss i2 f k is_new
                end
            | _ => on_cs_miss i2 f k is_new
            end.

  (** forwarder.cpp:276-296 onInterestFinalize *)
  Definition on_interest_finalize (k : pit_key) : M unit :=
    insert_dead_nonce_list k None ;;
    let! e := entry k in
    count (if pe_satisfied e then inc_satisfied else inc_unsatisfied) ;;
    tab (pit_erase k).

  Definition cs_insert (d : data) (unsol : bool) : M unit :=
    fun s => match Cs_Model.cs_insert (now (fw_t s)) d unsol (fw_cs s) with
             | Some c => Some (set_cs c s, tt)
             | None => None
             end.

  (** forwarder.cpp:393-406 onDataUnsolicited *)
  Definition on_data_unsolicited (d : data) (f : N) : M unit :=
    count inc_unsolicited ;;
    let! fc := face_of f in
    let! s := get in
    if unsol_decide (fw_unsol s) fc then cs_insert d true else ret tt.

  (** strategy.cpp:196-202 afterReceiveData *)
  Definition after_receive_data (st : strategy) (d : data) (f : N) (k : pit_key) : M unit :=
    match st_data st with
    | Some p => run None k (p d f k)
    | None => run None k (st_before st d f k) ;; send_data_to_all d f k
    end.

  (** forwarder.cpp:353-381, the loop over several matching entries: the faces to send to *)
  Fixpoint satisfy_all (d : data) (f : N) (ks : list pit_key) (pending : list N) : M (list N) :=
    match ks with
    | [] => ret pending
    | k :: ks' =>
        let! s := get in
        let! e := entry k in
        let pending' := pending ++ List.filter (fun g => negb (existsb (N.eqb g) pending)) (pending_downstreams (now (fw_t s)) e) in
        set_expiry k 0 ;;
        let! st := strategy_for (pk_name k) in
        run None k (st_before st d f k) ;;
        mark_satisfied k (d_fresh d) ;;
        insert_dead_nonce_list k (Some f) ;;
        upd_entry k (fun e => set_pe_out (delete_out f (pe_out e)) (set_pe_in [] e)) ;;
        satisfy_all d f ks' pending'
    end.

  (** forwarder.cpp:298-391 onIncomingData *)
  Definition on_incoming_data (d : data) (f : N) : M unit :=
    emit (Rx_data f d) ;;
    count inc_in_data ;;
    let! fc := face_of f in
    if negb (fc_local fc) && is_localhost (d_name d) then ret tt
    else
      let! s := get in
      match pe_key <$> pit_all_data_matches d (fw_t s) with
      | [] => on_data_unsolicited d f
      | [k] =>
          cs_insert d false ;;
          set_expiry k 0 ;;
          let! st := strategy_for (pk_name k) in
          after_receive_data st d f k ;;
          mark_satisfied k (d_fresh d) ;;
          insert_dead_nonce_list k (Some f) ;;
          upd_entry k (fun e => set_pe_out (delete_out f (pe_out e)) e)
      | ks =>
          cs_insert d false ;;
          let! pending := satisfy_all d f ks [] in
          let! s1 := get in
          each (List.filter (not_back (fw_faces s1) f) (face_order pending))
            (fun g => on_outgoing_data d None g ;; ret tt)
      end.

  (** forwarder.cpp:434-487 onIncomingNack *)
  Definition on_incoming_nack (i : interest) (reason : N) (f : N) : M unit :=
    emit (Rx_nack f i reason) ;;
    count inc_in_nacks ;;
    let! fc := face_of f in
    if negb (is_p2p fc) then ret tt
    else
      let! s := get in
      match pit_find i (fw_t s) with
      | None => fail
      | Some None => ret tt
      | Some (Some e) =>
          match find_out f (pe_out e) with
          | None => ret tt
          | Some r =>
              if negb (i_nonce i =? fr_nonce (or_rec r))%N then ret tt
              else
                let k := pe_key e in
                upd_entry k (fun e => set_pe_out (out_nack f (i_nonce i) reason (pe_out e)) e) ;;
                let! e1 := entry k in
                (if has_pending_out (now (fw_t s)) e1 then ret tt else set_expiry k 0) ;;
                let! st := strategy_for (pk_name k) in
                run None k (st_nack st i reason f k)
          end
      end.

  (** forwarder.cpp:541-562 onNewNextHop: the PIT entries whose nexthops may have changed.  The
      order in which the hash table lists them, and entries that appear during the
      enumeration, are not modelled *)
  Definition newhop_sel (prefix : name) (q : name) (e : nte) : bool * bool :=
    if (match e_fib e with Some _ => true | None => false end) && (length prefix <? length q)%nat
    then (false, false)
    else (match e_pit e with [] => false | _ => true end, true).
  Definition affected (prefix : name) (T : tables) : list pit_key :=
    concat (map (fun '(q, e) => if t_visited prefix (newhop_sel prefix) (tr T) q then map pe_key (e_pit e) else [])
              (map_to_list (tr T))).
  Definition on_new_next_hop (prefix : name) (nh : nexthop) : M unit :=
    let! s := get in
    each (affected prefix (fw_t s))
      (fun k => let! st := strategy_for (pk_name k) in run None k (st_newhop st nh k)).

  (** mgmt/fib-manager.cpp:58-86 addNextHop *)
  Definition fib_mgr_add (prefix : name) (f cost : N) : M unit :=
    if (MAX_DEPTH <? length prefix)%nat then ret tt
    else
      let! s := get in
      match fw_faces s !! f with
      | None => ret tt
      | Some _ =>
          tab (fun T => fst <$> fib_insert prefix T) ;;
          let! sig := (fun s => match fib_add_nexthop sort_nexthops prefix f cost (fw_t s) with
                                | Some (T, sig) => Some (set_t T s, sig)
                                | None => None
                                end) in
          match sig with
          | Some (p, nh) => on_new_next_hop p nh
          | None => ret tt
          end
      end.
  (** mgmt/fib-manager.cpp:88-123 removeNextHop *)
  Definition fib_mgr_remove (prefix : name) (f : N) : M unit :=
    let! s := get in
    match fw_faces s !! f with
    | None => ret tt
    | Some _ =>
        match fib_find prefix (fw_t s) with
        | None => ret tt
        | Some _ => tab (fun T => fst <$> fib_remove_nexthop prefix f T)
        end
    end.

  (** * face-table.cpp *)
  (** face-table.cpp:73-91 addImpl *)
  Definition face_add_impl (fc : face) (id : N) (last : N) : M unit :=
    fun s => match fw_faces s !! id with
             | Some _ => None                                       (* line 78 *)
             | None => Some (set_faces (<[id := fc]> (fw_faces s)) last s, tt)
             end.
  (** face-table.cpp:51-62 add, of a face that is not in the table *)
  Definition face_add (fc : face) : M unit :=
    let! s := get in
    let id := inc64 (fw_last s) in
    if (id <=? FACEID_RESERVED_MAX)%N then fail else face_add_impl fc id id.
  (** face-table.cpp:64-71 addReserved *)
  Definition face_add_reserved (fc : face) (id : N) : M unit :=
    let! s := get in
    if (FACEID_RESERVED_MAX <? id)%N then fail else face_add_impl fc id (fw_last s).
  (** face-table.cpp:93-112 remove, forwarder.cpp:78-80 *)
  Definition face_remove (f : N) : M unit :=
    face_of f ;;
    tab (cleanup_on_face_removal f) ;;
    put (fun s => set_faces (delete f (fw_faces s)) (fw_last s) s).

  (** * Events *)
  Inductive event :=
  | EvInterest (f : N) (i : interest)
  | EvData (f : N) (d : data)
  | EvNack (f : N) (i : interest) (reason : N)
  | EvPitTimer (k : pit_key)                         (* the expiry timer of a PIT entry *)
  | EvAsync (inst : name) (arg : list Z) (k : pit_key)   (* a timer or callback of a strategy *)
  | EvFibAdd (p : name) (f cost : N)
  | EvFibRemove (p : name) (f : N)
  | EvStrategySet (p req : name)
  | EvStrategyUnset (p : name)
  | EvFaceAdd (fc : face)
  | EvFaceAddReserved (fc : face) (id : N)
  | EvFaceRemove (f : N)
  | EvRegions (l : list name)
  | EvUnsol (p : unsol_policy)
  | EvHop (h : N)
  | EvCs (o : Cs_Model.cs_op)                        (* management, configuration and timers of the content store *)
  | EvDnlMark
  | EvDnlAdjust
  | EvTick (d : Z).

  Definition fw_event (ev : event) : M unit :=
    match ev with
    | EvInterest f i => on_incoming_interest i f
    | EvData f d => on_incoming_data d f
    | EvNack f i r => on_incoming_nack i r f
    | EvPitTimer k => on_interest_finalize k
    | EvAsync inst arg k => run None k (st_async (strategies inst) arg k)
    | EvFibAdd p f c => fib_mgr_add p f c
    | EvFibRemove p f => fib_mgr_remove p f
    | EvStrategySet p req => tab (fun T => fst <$> sc_insert create_strategy same_type p req T)
    | EvStrategyUnset p => tab (sc_erase same_type p)
    | EvFaceAdd fc => face_add fc
    | EvFaceAddReserved fc id => face_add_reserved fc id
    | EvFaceRemove f => face_remove f
    | EvRegions l => put (set_regions l)
    | EvUnsol p => put (set_unsol p)
    | EvHop h => put (set_hop h)
    | EvCs o => fun s => match Cs_Model.cs_step (fw_cs s) o with Some (c, _) => Some (set_cs c s, tt) | None => None end
    | EvDnlMark => put (fun s => set_dnl (Dnl_Model.dnl_mark (fw_dnl s)) s)
    | EvDnlAdjust => put (fun s => set_dnl (Dnl_Model.dnl_adjust (fw_dnl s)) s)
    | EvTick d => tab (fun T => Some (tick d T))
    end.
  Definition fw_step (s : fw) (ev : event) : option fw := fst <$> fw_event ev s.

  (** forwarder.cpp:50-87 Forwarder::Forwarder, cs.hpp default capacity; [def] names the
      default strategy *)
  Definition fw_new (def : name) (cs_limit : N) : option fw :=
    match sc_set_default create_strategy def new_tables, Dnl_Model.dnl_new DNL_LIFETIME with
    | Some T, Some d => Some (Fw T (Cs_Model.cs_init cs_limit) d ∅ FACEID_RESERVED_MAX [] DropAll 0 no_counters 0 [] [])
    | _, _ => None
    end.
End fw.
