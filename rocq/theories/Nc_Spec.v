(** What the command line of nfdc means, said without its parser. *)
From Coq Require Import String Ascii.
From stdpp Require Import gmap strings.
From Verif Require Import Lib Nc_Model.
Open Scope list_scope.

(** A text of decimal digits and its number. *)
Inductive decimal : string -> N -> Prop :=
| dec_one (d : N) : (d < 10)%N -> decimal (String (ascii_of_N (48 + d)) "") d
| dec_more (s : string) (n d : N) : decimal s n -> (d < 10)%N -> decimal (s +:+ String (ascii_of_N (48 + d)) "") (10 * n + d).
(** With a sign. *)
Inductive signed : string -> bool -> N -> Prop :=
| sg_plain s n : decimal s n -> signed s false n
| sg_plus s n : decimal s n -> signed (String "+" s) false n
| sg_minus s n : decimal s n -> signed (String "-" s) true n.

Section nfdc.
Context {X : Type} (ext : vtype -> string -> option X).
(** The values that a text stands for. *)
Inductive means : vtype -> string -> val (X:=X) -> Prop :=
| m_true s : s ∈ ["on"; "true"; "enabled"; "yes"; "1"]%string -> means TBoolean s (VBool true)
| m_false s : s ∈ ["off"; "false"; "disabled"; "no"; "0"]%string -> means TBoolean s (VBool false)
| m_unsigned s n : signed s false n -> (n < 2 ^ 63)%N -> means TUnsigned s (VUint n)
| m_minus_zero s : signed s true 0 -> means TUnsigned s (VUint 0)
| m_string s : means TString s (VStr s)
| m_xml : means TFormat "xml" (VXml true)
| m_text : means TFormat "text" (VXml false)
| m_name t s x : t = TName \/ t = TUri \/ t = TOrigin -> ext t s = Some x -> means t s (VExt x)
| m_face_id s n : signed s false n -> (n < 2 ^ 64)%N -> means TFaceId s (VUint n)
| m_face_id_minus s n : signed s true n -> (0 < n < 2 ^ 64)%N -> means TFaceId s (VUint (2 ^ 64 - n))
| m_face_id_minus_zero s : signed s true 0 -> means TFaceId s (VUint 0)
| m_face_uri s x : (forall sg n, signed s sg n -> (2 ^ 64 <= n)%N) -> ext TUri s = Some x -> means TFaceId s (VExt x)
| m_persistent : means TPersistency "persistent" (VPermanent false)
| m_permanent : means TPersistency "permanent" (VPermanent true).

(** Tokens against the arguments of a command: the assignments, in order. [pos]: the arguments that may still be given by position. *)
Definition is_name (args : gmap string argdef) (t : string) : Prop := exists a, args !! t = Some a /\ a_type a <> TAny.
Definition skipped (args : gmap string argdef) (t : string) (l : list string) : Prop :=
  Forall (fun p => exists a, args !! p = Some a /\ a_type a <> TAny /\ a_required a = false /\ forall v, ~ means (a_type a) t v) l.
Inductive reads (args : gmap string argdef) : list string -> list string -> list (string * val (X:=X)) -> Prop :=
| r_nil pos : reads args [] pos []
| r_flag t r rest pos asg : args !! t = Some (Arg TNone r) -> reads args rest [] asg -> reads args (t :: rest) pos ((t, VBool true) :: asg)
| r_named t ty r v x rest pos asg :
    args !! t = Some (Arg ty r) -> ty <> TAny -> ty <> TNone -> means ty v x -> reads args rest [] asg -> reads args (t :: v :: rest) pos ((t, x) :: asg)
| r_any t rest sk p r pos : ~ is_name args t -> skipped args t sk -> args !! p = Some (Arg TAny r) -> reads args (t :: rest) (sk ++ p :: pos) [(p, VList (t :: rest))]
| r_pos t rest sk p ty r x pos asg :
    ~ is_name args t -> skipped args t sk -> args !! p = Some (Arg ty r) -> ty <> TAny -> means ty t x -> reads args rest pos asg ->
    reads args (t :: rest) (sk ++ p :: pos) ((p, x) :: asg).
End nfdc.

(** * Batch files *)
(** What a character is. *)
Definition separators : list ascii := [" "; ascii_of_nat 9]%char.
Definition quotes : list ascii := [""""; "'"]%char.
Definition specials : list ascii := separators ++ quotes ++ ["\"%char].
(** The fields of a line. [q]: inside quotes. *)
Inductive fields : bool -> list ascii -> list (list ascii) -> Prop :=
| f_end q : fields q [] [[]]
| f_newline q l f fs : fields q l (f :: fs) -> fields q ("\" :: "n" :: l)%char ((ascii_of_nat 10 :: f) :: fs)
| f_escape q c l f fs : c ∈ specials -> fields q l (f :: fs) -> fields q ("\"%char :: c :: l) ((c :: f) :: fs)
| f_sep c l fs : c ∈ separators -> fields false l fs -> fields false (c :: l) ([] :: fs)
| f_quoted_sep c l f fs : c ∈ separators -> fields true l (f :: fs) -> fields true (c :: l) ((c :: f) :: fs)
| f_quote q c l fs : c ∈ quotes -> fields (negb q) l fs -> fields q (c :: l) fs
| f_plain q c l f fs : c ∉ specials -> fields q l (f :: fs) -> fields q (c :: l) ((c :: f) :: fs).

(** A way to write a word: between double quotes, with backslashes before the quotes (of both kinds) and the backslashes, and [\n] for a new line. *)
Definition quote_char (c : ascii) : list ascii :=
  if decide (c = ascii_of_nat 10) then ["\"; "n"]%char else if decide (c ∈ quotes \/ c = "\"%char) then ["\"%char; c] else [c].
Definition quote_word (w : list ascii) : list ascii := """"%char :: flat_map quote_char w ++ [""""%char].
Fixpoint quote_line (ws : list (list ascii)) : list ascii :=
  match ws with [] => [] | [w] => quote_word w | w :: ws' => quote_word w ++ " "%char :: quote_line ws' end.
Definition slashes (l : list ascii) : nat := length (List.filter (fun c => Ascii.eqb c "\") l).

Definition nonempty (f : list ascii) : bool := match f with [] => false | _ => true end.
(** A batch file as it is meant to be written: empty lines, comments, commands, and commands that are continued on the next lines. *)
Inductive item := IBlank (l : list ascii) | IComment (l : list ascii) | IWords (ws : list (list ascii)) | ISplit (chunks : list (list ascii)) (last : list ascii).
Definition item_lines (i : item) : list (list ascii) :=
  match i with IBlank l => [l] | IComment l => [("#"%char :: l)] | IWords ws => [quote_line ws] | ISplit chunks last => map (fun l => l ++ ["\"%char]) chunks ++ [last] end.
Inductive item_words : item -> option (list string) -> Prop :=
| iw_blank l : Forall (fun c => c ∈ separators) l -> item_words (IBlank l) None
| iw_comment l : "\"%char ∉ l -> item_words (IComment l) None
| iw_words ws : ws <> [] -> Forall (fun w => w <> [] /\ Forall (fun c => c ∉ quotes /\ c <> "\"%char /\ c <> ascii_of_nat 10) w) ws -> (forall w ws', ws = w :: ws' -> head w <> Some "#"%char) ->
    item_words (IWords ws) (Some (map string_of_list_ascii ws))
| iw_split chunks last fs w ws : Forall (fun l => "\"%char ∉ l) (last :: chunks) -> fields false (concat chunks ++ last) fs -> List.filter nonempty fs = w :: ws -> head w <> Some "#"%char ->
    item_words (ISplit chunks last) (Some (map string_of_list_ascii (w :: ws))).
