(** What the self-learning strategy is to do. *)
From stdpp Require Import gmap.
From Verif Require Import Lib Name_Model Packet_Model Tab_Model Tab_Spec Tab_At Tab_Sc Fw_Model Fw_Spec St_Spec Acc_Spec.

(** the Interest that came from [g], or was sent to [g], was non-discovery; or discovery *)
Definition marked_in (s : fw) (k : pit_key) (g : N) (nondiscovery : bool) : Prop :=
  exists r, in_record_of s k g r /\ item 1040 [if nondiscovery then 1 else 0]%Z (fr_info (ir_rec r)).
Definition marked_out (s : fw) (k : pit_key) (g : N) (nondiscovery : bool) : Prop :=
  exists r, out_record_of s k g r /\ item 1041 [if nondiscovery then 1 else 0]%Z (fr_info (or_rec r)).

(** [tx] is the Interest [j] sent, once each, to the faces that satisfy [P] *)
Definition sent_where (s : fw) (j : interest) (P : N -> Prop) (tx : list io) : Prop :=
  NoDup tx /\ forall x, x ∈ tx <-> exists g, P g /\ leaves s j g /\ x = Tx_interest g j.

(** the Interest of [g] has not expired *)
Definition live (s : fw) (k : pit_key) (g : N) (r : in_record) : Prop :=
  in_record_of s k g r /\ (now (fw_t s) < fr_expiry (ir_rec r))%Z.
(** some pending Interest is a discovery Interest, and not all consumers are local *)
Definition wants_ann (s : fw) (k : pit_key) : Prop :=
  (exists g r, live s k g r /\ item 1040 [0%Z] (fr_info (ir_rec r))) /\ (exists g r, live s k g r /\ nonlocal_face s g).
(** face [g] is to be answered with Data that came from [f] *)
Definition in_turn (s : fw) (f : N) (k : pit_key) (g : N) (r : in_record) : Prop := live s k g r /\ (g = f -> adhoc_face s g).
(** [tx] is [d] sent to every face that is to be answered, once *)
Definition answers_all (s : fw) (f : N) (k : pit_key) (d : data) (tx : list io) : Prop :=
  NoDup (omap data_to tx) /\
  forall x, x ∈ tx <-> exists g r, in_turn s f k g r /\ (localhost (d_name d) -> local_face s g) /\ x = Tx_data g d (i_token (ir_interest r)).
(** whose Interests are still pending then *)
Definition answered_leaves (s s' : fw) (f : N) (k : pit_key) : Prop :=
  forall g r, in_record_of s' k g r <-> in_record_of s k g r /\ ~ in_turn s f k g r.
Definition pending_kept (s s' : fw) (k : pit_key) : Prop := forall g r, in_record_of s' k g r <-> in_record_of s k g r.

(** what is asked of the RIB, newest first: 1, find an announcement for the Data that was packet number ..; 2, add the route of an
    announcement, to a face, for so many milliseconds; 3, renew the route for the name of the Nack that was packet number .., to a face *)
Definition posted (s s' : fw) (l : list (N * list Z)) : Prop := fw_priv s' = l ++ fw_priv s.
(** [x] is packet number [n] *)
Definition packet (s : fw) (n : Z) (x : io) : Prop := exists newer older, fw_log s = newer ++ x :: older /\ n = Z.of_nat (length older).
(** the Data that was packet number [n] is kept until an announcement has been found for it *)
Definition waiting (s : fw) (k : pit_key) (n : Z) : Prop := exists l, item 1042 l (info_of s k) /\ n ∈ l.
Definition expires (s : fw) (k : pit_key) (t : Z) : Prop := exists e, pit_at (fw_t s) k = Some e /\ pe_timer e = Some t.
