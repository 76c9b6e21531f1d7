(** What Ethernet faces are to do. *)
From Coq Require Import String Ascii.
From Verif Require Import Lib Fm_Model Lp_Model Tp_Model Tp_Spec Et_Model.

(** IEEE 802.3: six octets of destination, six of source, two of type, the payload *)
Definition is_frame (p : list N) (dst src : mac) (type : N) (payload : list N) : Prop :=
  exists hi lo, p = dst ++ src ++ [hi; lo] ++ payload /\ length dst = 6 /\ length src = 6 /\ type = (hi * 256 + lo)%N.
(** 0x8624 *)
Definition NDN_TYPE : N := 34340.
Definition octets (a : list N) : Prop := Forall (fun b => (b < 256)%N) a.
(** the usual text of an octet *)
Definition octet_text (b : N) : option string :=
  match String.get (N.to_nat (b / 16)) "0123456789abcdef", String.get (N.to_nat (b mod 16)) "0123456789abcdef" with Some x, Some y => Some (String x (String y EmptyString)) | _, _ => None end.

(** * Histories of a transport *)
(** what libpcap, the kernel and the scheduler do; the persistency of a multicast face cannot be changed (transport.cpp:147-151) *)
Definition et_env (now : Z) (x : et) (e : et_event) : Prop :=
  match e with
  | EReady e => e_waits x <> 0 /\ e <> Some EAborted
  | ERun _ => e_ready x <> []
  | EPersistency t p => t = now /\ (is_group (e_dst x) = true -> p = Permanent)
  | ETimer t => t = now /\ exists due, e_timer x = Some due /\ (due <= now)%Z
  | EPayload _ _ => e_state x <> TClosed
  | _ => True
  end.
(** packets are not larger than the MTU, in both directions *)
Definition et_fits (x : et) (e : et_event) : Prop :=
  match e with
  | ESend b _ => (Z.of_N (len b) <= e_mtu x)%Z
  | ERun (Some p) => forall b r, drop 14 p = b ++ r -> is_tlv b -> (Z.of_N (len b) <= e_mtu x)%Z
  | EPayload p _ => forall b r, p = b ++ r -> is_tlv b -> (Z.of_N (len b) <= e_mtu x)%Z
  | _ => True
  end.
(** the transport is not closed while a completed wait has yet to be handled *)
Definition et_calm (x : et) (e : et_event) : Prop :=
  forall x', et_step x e = Some x' -> e_open x = true -> e_open x' = false -> HRead None ∉ e_ready x.

(** from [x0] at [t0]: the time, when the last packet was received, the errors of waits so far, the transport *)
Inductive et_hist (x0 : et) (t0 : Z) : Z -> option Z -> nat -> et -> Prop :=
| eh_nil : et_hist x0 t0 t0 None 0 x0
| eh_snoc t last n x t' e x' :
    et_hist x0 t0 t last n x -> (t <= t')%Z -> et_env t' x e -> et_fits x e -> et_calm x e -> et_step x e = Some x' ->
    et_hist x0 t0 t' (if decide (length (e_got x) < length (e_got x')) then Some t' else last)
      (match e with EReady (Some _) => S n | _ => n end) x'.
Inductive et_new (t : Z) : et -> Prop :=
| en_unicast debug local remote running mtu p idle : is_group remote = false -> et_new t (unicast_new debug local remote running mtu p idle t)
| en_mcast debug local group running mtu x : mcast_new debug local group running mtu = Some x -> is_group group = true -> et_new t x.
(** a transport that was reached *)
Definition et_reached (t : Z) (last : option Z) (n : nat) (x : et) : Prop := exists x0 t0, et_new t0 x0 /\ et_hist x0 t0 t last n x.
