(** What processing a configuration is expected to do. *)
From Coq Require Import String Ascii.
From stdpp Require Import gmap strings.
From Verif Require Import Lib Cfg_Model.
Open Scope string_scope.
Open Scope list_scope.

Section Chain.
Context {S : Type} (subscribed : string -> option (@handler S)) (ignored : unknown_callback) (dry : bool).
(** each section is processed, one after the other, by the handler that is subscribed to its name; without one it is left
    out if it may be *)
Inductive chain : list (string * ptree) -> S -> S -> Prop :=
| chain_nil s : chain [] s s
| chain_handled k t l h s s1 s' : subscribed k = Some h -> h t dry s = Done s1 -> chain l s1 s' -> chain ((k, t) :: l) s s'
| chain_ignored k t l s s' : subscribed k = None -> ignored k = true -> chain l s s' -> chain ((k, t) :: l) s s'.
End Chain.
(** the handler changes nothing in a dry run *)
Definition dry_safe {S} (h : @handler S) : Prop := forall t s, state_of (h t true s) = s.
(** the handler does not throw std::out_of_range *)
Definition in_range {S} (h : @handler S) : Prop := forall t dry s s', h t dry s <> OutOfRange s'.

(** the text is a decimal number between white space, with or without a plus sign *)
Definition spaces (l : list ascii) : Prop := forall c, c ∈ l -> c ∈ [" "; "009"; "010"; "011"; "012"; "013"]%char.
Inductive decimal : list ascii -> N -> Prop :=
| decimal_one c d : c = ascii_of_N (48 + d) -> (d < 10)%N -> decimal [c] d
| decimal_more l n c d : decimal l n -> c = ascii_of_N (48 + d) -> (d < 10)%N -> decimal (l ++ [c]) (n * 10 + d).
Definition number_text (l : list ascii) (n : N) : Prop :=
  exists ws1 sign ds ws2, l = ws1 ++ sign ++ ds ++ ws2 /\ spaces ws1 /\ spaces ws2 /\ (sign = [] \/ sign = ["+"%char]) /\ decimal ds n.
