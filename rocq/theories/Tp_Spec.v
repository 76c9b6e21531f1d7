(** What transports are to do. *)
From Verif Require Import Lib Lp_Model Tp_Model.

(** * TLV *)
Fixpoint number (l : list N) : N := match l with [] => 0%N | b :: l' => (b * 256 ^ N.of_nat (length l') + number l')%N end.
(** NDN packet format: a VAR-NUMBER *)
Inductive var_number : list N -> N -> Prop :=
| vn_1 n : (n < 253)%N -> var_number [n] n
| vn_3 l : length l = 2%nat -> var_number (253%N :: l) (number l)
| vn_5 l : length l = 4%nat -> var_number (254%N :: l) (number l)
| vn_9 l : length l = 8%nat -> var_number (255%N :: l) (number l).
(** one TLV element: type, length, value *)
Definition is_tlv (e : list N) : Prop :=
  exists t n l v, e = t ++ l ++ v /\ var_number t n /\ (0 < n < 2 ^ 32)%N /\ var_number l (len v).
(** [s] begins with the elements [ps], and no complete element follows *)
Definition framed (s : list N) (ps : list (list N)) (rest : list N) : Prop :=
  s = concat ps ++ rest /\ Forall is_tlv ps /\ forall e r, rest = e ++ r -> ~ is_tlv e.

(** * States: transport.hpp:33-46, docs *)
Inductive documented : tstate -> tstate -> Prop :=
| d_up_down : documented TUp TDown
| d_down_up : documented TDown TUp
| d_up_closing : documented TUp TClosing
| d_up_failed : documented TUp TFailed
| d_down_closing : documented TDown TClosing
| d_down_failed : documented TDown TFailed
| d_closing_closed : documented TClosing TClosed
| d_failed_closed : documented TFailed TClosed.
(** from [a] through the states of [l] (newest first) to [b] *)
Inductive path (a : tstate) : list tstate -> tstate -> Prop :=
| path_nil : path a [] a
| path_cons l b c : path a l b -> documented b c -> path a (c :: l) c.
Definition shutting (v : tstate) : Prop := v = TClosing \/ v = TFailed \/ v = TClosed.

(** * Histories *)
Inductive x_hist (x0 : xp) : list xev -> xp -> Prop :=
| xh_nil : x_hist x0 [] x0
| xh_snoc l x e x' : x_hist x0 l x -> io_ok x e -> x_step x e = Some x' -> x_hist x0 (l ++ [e]) x'.
Definition x_reached (x : xp) : Prop := exists tcp perm l, x_hist (x_new tcp perm) l x.
(** the transport does not reconnect: it is not TCP, or it is never permanent *)
Definition plain (x : xp) : Prop := exists tcp perm l, x_hist (x_new tcp perm) l x /\ (tcp = false \/ perm = false /\ XPersistency true ∉ l).

Definition total (l : list (list N)) : N := foldr (fun p n => (len p + n)%N) 0%N l.
Definition is_send (h : handler) : bool := match h with HSend _ _ => true | _ => false end.
