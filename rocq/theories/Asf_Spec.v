(** What ASF is to do. *)
From stdpp Require Import gmap.
From Verif Require Import Lib Name_Model Packet_Model Nt_Model Tree_Model Tab_Model Tab_Spec Fw_Model Asf_Model.

(** * Ranking *)
(** where a face stands: it works, with this smoothed RTT; nothing is known; it has timed out *)
Inductive standing := Working (srtt : Z) | Unmeasured | TimedOut.
(** the last RTT is -1 if there was none, -2 if the face has timed out *)
Definition standing_of (know : known_of) (h : nexthop) : standing :=
  match know (nh_face h) with
  | None => Unmeasured
  | Some (rtt, srtt) => if decide (rtt = -1)%Z then Unmeasured else if decide (rtt = -2)%Z then TimedOut else Working srtt
  end.
(** lower cost first, then lower FaceId *)
Definition cheaper (h1 h2 : nexthop) : Prop :=
  (nh_cost h1 < nh_cost h2)%N \/ (nh_cost h1 = nh_cost h2 /\ (nh_face h1 <= nh_face h2)%N).
(** [h1] is as good as [h2] or better *)
Definition preferred (know : known_of) (h1 h2 : nexthop) : Prop :=
  match standing_of know h1, standing_of know h2 with
  | Working r1, Working r2 => (r1 < r2)%Z \/ (r1 = r2 /\ cheaper h1 h2)
  | Working _, _ => True
  | _, Working _ => False
  | Unmeasured, TimedOut => True
  | TimedOut, Unmeasured => False
  | _, _ => cheaper h1 h2
  end.

(** * What has happened with a face, oldest first *)
(** the face returned Data, with the RTT if the Interest was sent to it; it let a timeout pass; it
    returned a Nack *)
Inductive hit := HData (rtt : option Z) | HTimeout | HNack.
(** [h] ends with [k] timeouts in a row, and no more *)
Definition in_a_row (h : list hit) (k : nat) : Prop :=
  exists h1, h = h1 ++ replicate k HTimeout /\ last h1 <> Some HTimeout.
(** after [h], the face is given up on because of [x]: a Nack, or every [max]-th timeout in a row *)
Definition struck (max : nat) (h : list hit) (x : hit) : Prop :=
  x = HNack \/ (x = HTimeout /\ exists k, in_a_row (h ++ [x]) k /\ (k mod Nat.max 1 max = 0)%nat).
Definition measured (x : hit) : Prop := exists r, x = HData (Some r).
Definition out_of_use (max : nat) (h : list hit) : Prop :=
  exists h1 x h2, h = h1 ++ x :: h2 /\ struck max h1 x /\ Forall (fun y => ~ measured y) h2.
Definition in_use (max : nat) (h : list hit) (r : Z) : Prop :=
  exists h1 h2, h = h1 ++ HData (Some r) :: h2 /\ Forall (fun y => ~ measured y) h2 /\
    forall h3 x h4, h2 = h3 ++ x :: h4 -> ~ struck max (h1 ++ HData (Some r) :: h3) x.
Definition never_used (max : nat) (h : list hit) : Prop :=
  Forall (fun y => ~ measured y) h /\ forall h3 x h4, h = h3 ++ x :: h4 -> ~ struck max h3 x.
Definition rtts (h : list hit) : list Z := omap (fun x => match x with HData r => r | _ => None end) h.

(** * Namespaces *)
Section ns.
  Context {est : Type}.
  Variable mine : name -> bool.
  (** what is sent for the FIB entry [p] and the name [n] is accounted for in [m]: [p] if this
      strategy is chosen for it, or else the shortest longer prefix of [n] it is chosen for *)
  Definition accounted_in (p n m : name) : Prop :=
    (mine p = true /\ m = p) \/
    (mine p = false /\ mine m = true /\ exists k, (length p < k <= length n)%nat /\ m = take (Nat.min k 32) n /\
      forall k', (length p < k' < k)%nat -> mine (take (Nat.min k' 32) n) = false).
  (** what comes back for [n] is accounted for in [m] *)
  Definition looked_up_in (a : asf est) (n m : name) : Prop :=
    longest_defined (fun q => as_ns a !! q) (take 32 n) m /\ mine m = true.

  (** event [e], in state [a], is about face [g] in namespace [m] *)
  Definition sends_in (e : asf_ev) (m : name) (g : N) : Prop :=
    exists p n sent, e = ASend p n g sent /\ accounted_in p n m.
  Definition hits_in (a : asf est) (e : asf_ev) (m : name) (g : N) (x : hit) : Prop :=
    (exists n d rtt, e = AData n d g rtt /\ looked_up_in a n m /\ x = HData rtt) \/
    (exists n, e = ANack n g /\ looked_up_in a n m /\ x = HNack) \/
    (exists m0 fi d n, e = ATimeout m0 g /\ face_info m0 g a = Some fi /\ fi_timer fi = Some (d, n) /\ looked_up_in a n m /\ x = HTimeout).
  Definition ends_in (e : asf_ev) (m : name) (g : N) : Prop := e = AFaceEnd m g \/ e = AEntryEnd m.
  (** what has happened with [g] in [m] since something was first known about it *)
  Definition next_story (a : asf est) (e : asf_ev) (m : name) (g : N) (o o' : option (list hit)) : Prop :=
    (sends_in e m g -> o' = Some (default [] o)) /\
    (forall x, hits_in a e m g x -> o' = option_map (fun h => h ++ [x]) o) /\
    (ends_in e m g -> o' = None) /\
    (~ sends_in e m g -> (forall x, ~ hits_in a e m g x) -> ~ ends_in e m g -> o' = o).
  (** the story of [g] in [m], in a run; [step] is what happens at a time *)
  Inductive story (step : asf est -> Z -> asf_ev -> option (asf est)) (m : name) (g : N) : list (Z * asf_ev) -> asf est -> option (list hit) -> Prop :=
  | story_start : story step m g [] asf_init None
  | story_next l a o t e a' o' : story step m g l a o -> step a t e = Some a' -> next_story a e m g o o' -> story step m g (l ++ [(t, e)]) a' o'.
End ns.
