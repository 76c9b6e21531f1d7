(** Interest, Data and Nack packets as seen by NFD's tables and pipelines.
    Packet decoding itself is done by ndn-cxx and is not modelled. *)
From Verif Require Import Lib Name_Model.

(** The fields of ndn::Interest that NFD reads.
    [i_hint] is the forwarding hint, [i_nexthop] the NextHopFaceId tag,
    [i_token] the opaque PIT token tag, [i_nondisc] the NonDiscovery tag. *)
Record interest := Interest {
  i_name : name;
  i_cbp : bool;              (* CanBePrefix *)
  i_mbf : bool;              (* MustBeFresh *)
  i_nonce : N;
  i_lifetime : Z;            (* milliseconds *)
  i_hop : option N;          (* HopLimit, 0..255 *)
  i_hint : list name;
  i_nexthop : option N;
  i_token : option N;
  i_nondisc : bool;
}.

(** The fields of ndn::Data that NFD reads.  [d_digest] is the value of the
    implicit SHA-256 digest component of the full name; [d_content] stands for
    everything NFD does not look at. *)
Record data := Data {
  d_name : name;
  d_digest : list N;
  d_fresh : Z;               (* FreshnessPeriod, milliseconds *)
  d_nocache : bool;          (* CachePolicyTag == NO_CACHE *)
  d_content : N;
}.

(** ndn::Data::getFullName()[-1] *)
Definition digest_comp (d : data) : comp := (T_IMPLICIT_DIGEST, d_digest d).
(** ndn::Data::getFullName *)
Definition d_full_name (d : data) : name := d_name d ++ [digest_comp d].

(** ndn::Interest::matchesData, called at daemon/table/cs-entry.cpp:52 and
    daemon/table/pit.cpp:104. *)
Definition matches_data (i : interest) (d : data) : bool :=
  let name_ok :=
    if (length (i_name i) =? S (length (d_name d)))%nat then
      match last (i_name i) with
      | Some c => is_digest c && name_eqb (i_name i) (d_full_name d)
      | None => false
      end
    else if i_cbp i then name_prefixb (i_name i) (d_name d)
    else name_eqb (i_name i) (d_name d) in
  name_ok && negb (i_mbf i && (d_fresh d <=? 0)%Z).

(** Two's complement wrap-around of a signed 64-bit duration or time point.
    (C++ leaves signed overflow undefined; this is what the usual compilers
    produce, and theorems that need it exclude overflow explicitly.) *)
Definition wrap64 (z : Z) : Z := ((z + 2^63) mod 2^64 - 2^63)%Z.
Definition NS_PER_MS : Z := 1000000.
(** implicit conversion time::milliseconds -> time::nanoseconds *)
Definition ns_of_ms (ms : Z) : Z := wrap64 (ms * NS_PER_MS).
