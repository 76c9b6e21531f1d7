(** The command line of nfdc: tools/nfdc/command-definition.cpp, command-parser.cpp, main.cpp and the decision of help.cpp.
    The parsers of names, FaceUris and route origins (ndn-cxx) and the commands themselves are parameters.  boost::tokenizer's escaped_list_separator and boost::lexical_cast are modelled.
    Not modelled: the texts of messages, the list of commands that is printed, the man page, and which commands nfdc registers. *)
From Coq Require Import String Ascii.
From stdpp Require Import gmap strings.
From Verif Require Import Lib.
Open Scope list_scope.

(** command-definition.hpp:40-108 *)
Inductive vtype := TNone | TAny | TBoolean | TUnsigned | TString | TFormat | TName | TUri | TFaceId | TPersistency | TOrigin.
Global Instance vtype_dec : EqDecision vtype. Proof. solve_decision. Defined.

(** * Numbers: boost::lexical_cast in the "C" locale *)
Definition digit_of (c : ascii) : option N := let n := N_of_ascii c in if ((48 <=? n) && (n <=? 57))%N then Some (n - 48)%N else None.
Fixpoint digits_acc (acc : N) (s : string) : option N :=
  match s with EmptyString => Some acc | String c s' => match digit_of c with Some d => digits_acc (10 * acc + d) s' | None => None end end.
Definition lex_digits (s : string) : option N := match s with EmptyString => None | _ => digits_acc 0 s end.
(** the sign, and what follows *)
Definition lex_sign (s : string) : bool * string :=
  match s with String c s' => if ascii_dec c "-" then (true, s') else if ascii_dec c "+" then (false, s') else (false, s) | EmptyString => (false, s) end.
Definition lex_i64 (s : string) : option Z :=
  match lex_sign s with
  | (neg, t) => match lex_digits t with
                | None => None
                | Some n => if neg then if (n <=? 2 ^ 63)%N then Some (- Z.of_N n)%Z else None else if (n <? 2 ^ 63)%N then Some (Z.of_N n) else None
                end
  end.
Definition lex_u64 (s : string) : option N :=
  match lex_sign s with
  | (neg, t) => match lex_digits t with
                | None => None
                | Some n => if (n <? 2 ^ 64)%N then Some (if neg then (2 ^ 64 - n) mod 2 ^ 64 else n)%N else None
                end
  end.

Section nfdc.
(** values of ndn-cxx types *)
Context {X : Type} (ext : vtype -> string -> option X).
Inductive val := VBool (b : bool) | VUint (n : N) | VStr (s : string) | VXml (b : bool) | VExt (x : X) | VPermanent (b : bool) | VList (l : list string).
(** command-definition.cpp:211-246 *)
Definition parse_boolean (s : string) : option bool :=
  if existsb (String.eqb s) ["on"; "true"; "enabled"; "yes"; "1"]%string then Some true
  else if existsb (String.eqb s) ["off"; "false"; "disabled"; "no"; "0"]%string then Some false else None.
(** command-definition.cpp:248-304 parseValue; None: an exception *)
Definition parse_value (t : vtype) (s : string) : option val :=
  match t with
  | TNone | TAny => None
  | TBoolean => VBool <$> parse_boolean s
  | TUnsigned => match lex_i64 s with Some v => if (v <? 0)%Z then None else Some (VUint (Z.to_N v)) | None => None end
  | TString => Some (VStr s)
  | TFormat => if String.eqb s "xml" then Some (VXml true) else if String.eqb s "text" then Some (VXml false) else None
  | TName | TUri | TOrigin => VExt <$> ext t s
  | TFaceId => match lex_u64 s with Some n => Some (VUint n) | None => VExt <$> ext TUri s end
  | TPersistency => if String.eqb s "persistent" then Some (VPermanent false) else if String.eqb s "permanent" then Some (VPermanent true) else None
  end.

(** * Definitions of commands *)
Record argdef := Arg { a_type : vtype; a_required : bool }.
Record cdef := Cdef { d_noun : string; d_verb : string; d_args : gmap string argdef; d_pos : list string }.
Definition def_new (noun verb : string) : cdef := Cdef noun verb ∅ [].
(** command-definition.cpp:104-130 addArg; None: an assertion *)
Definition add_arg (name : string) (t : vtype) (required positional : bool) (d : cdef) : option cdef :=
  match d_args d !! name with
  | Some _ => None
  | None =>
      if positional then if decide (t = TNone) then None else Some (Cdef (d_noun d) (d_verb d) (<[name := Arg t required]> (d_args d)) (d_pos d ++ [name]))
      else if decide (t = TAny) then None else Some (Cdef (d_noun d) (d_verb d) (<[name := Arg t required]> (d_args d)) (d_pos d))
  end.
(** command-definition.cpp:168-196: the token against the positional arguments that are left *)
Inductive positional := PVal (name : string) (v : val) (rest : list string) | PAny (name : string) | PError.
Fixpoint try_positional (d : cdef) (token : string) (pos : list string) : positional :=
  match pos with
  | [] => PError
  | p :: pos' =>
      match d_args d !! p with
      | None => PError
      | Some a => if decide (a_type a = TAny) then PAny p
                  else match parse_value (a_type a) token with
                       | Some v => PVal p v pos'
                       | None => if a_required a then PError else try_positional d token pos'
                       end
      end
  end.
(** command-definition.cpp:132-209 parse, the loop over the tokens; None: Error *)
Fixpoint parse_tokens (d : cdef) (tokens pos : list string) (ca : gmap string val) : option (gmap string val) :=
  match tokens with
  | [] => Some ca
  | t :: rest =>
      match (match d_args d !! t with Some a => if decide (a_type a = TAny) then None else Some a | None => None end) with
      | Some a =>
          if decide (a_type a = TNone) then parse_tokens d rest [] (<[t := VBool true]> ca)
          else match rest with
               | [] => None
               | v :: rest' => match parse_value (a_type a) v with Some x => parse_tokens d rest' [] (<[t := x]> ca) | None => None end
               end
      | None =>
          match try_positional d t pos with
          | PVal p x pos' => parse_tokens d rest pos' (<[p := x]> ca)
          | PAny p => Some (<[p := VList tokens]> ca)
          | PError => None
          end
      end
  end.
Definition missing (d : cdef) (ca : gmap string val) : bool := existsb (fun '(n, a) => a_required a && match ca !! n with Some _ => false | None => true end) (map_to_list (d_args d)).
Definition parse_args (d : cdef) (tokens : list string) : option (gmap string val) :=
  match parse_tokens d tokens (d_pos d) ∅ with Some ca => if missing d ca then None else Some ca | None => None end.

(** * Commands *)
(** command-parser.cpp:76-98, 118-141; modes: only whether the command is available in one-shot mode; the command is told by its noun, verb and arguments *)
Record centry := Centry { ce_def : cdef; ce_one_shot : bool }.
Definition table := gmap (string * string) centry.
Definition add_command (d : cdef) (one_shot : bool) (t : table) : table := <[(d_noun d, d_verb d) := Centry d one_shot]> t.
Definition add_alias (noun verb verb2 : string) (t : table) : option table := match t !! (noun, verb) with Some c => Some (<[(noun, verb2) := c]> t) | None => None end.
Record command := Command { c_noun : string; c_verb : string; c_args : gmap string val }.
Definition parse_command (t : table) (tokens : list string) : option command :=
  let noun := match tokens with n :: _ => n | [] => EmptyString end in
  let verb := match tokens with _ :: v :: _ => v | _ => EmptyString end in
  match t !! (noun, verb) with
  | None => None
  | Some c => if ce_one_shot c then match parse_args (ce_def c) (drop 2 tokens) with Some ca => Some (Command (d_noun (ce_def c)) (d_verb (ce_def c)) ca) | None => None end else None
  end.
End nfdc.

(** * Batch files *)
Definition BACKSLASH : ascii := "\".
Definition is_sep (c : ascii) : bool := if ascii_dec c " " then true else if ascii_dec c (ascii_of_nat 9) then true else false.
Definition is_quote (c : ascii) : bool := if ascii_dec c """" then true else if ascii_dec c "'" then true else false.
Definition is_escape (c : ascii) : bool := if ascii_dec c BACKSLASH then true else false.
(** boost::escaped_list_separator with the backslash as escape, the space and the tab as separators and both quotes: the fields, one after the other, and whether all of them could be read; if not, the next one raises escaped_list_error *)
Fixpoint fields_from (quoted : bool) (tok : list ascii) (l : list ascii) : list (list ascii) * bool :=
  match l with
  | [] => ([tok], true)
  | c :: l' =>
      if is_escape c then
        match l' with
        | [] => ([], false)
        | e :: l'' =>
            if ascii_dec e "n" then fields_from quoted (tok ++ [ascii_of_nat 10]) l''
            else if is_quote e || is_sep e || is_escape e then fields_from quoted (tok ++ [e]) l'' else ([], false)
        end
      else if is_sep c then
        if quoted then fields_from quoted (tok ++ [c]) l'
        else match fields_from false [] l' with (r, ok) => (tok :: r, ok) end
      else if is_quote c then fields_from (negb quoted) tok l'
      else fields_from quoted (tok ++ [c]) l'
  end.
Definition tokenize (l : list ascii) : list (list ascii) * bool := match l with [] => ([], true) | _ => fields_from false [] l end.
(** main.cpp:90-93 hasEscapeSlash *)
Definition has_escape_slash (l : list ascii) : bool := Nat.odd (length (List.filter is_escape l)).
(** main.cpp:94-102: the line, what follows it, and how many lines were asked for *)
Fixpoint join_lines (line : list ascii) (rest : list (list ascii)) : list ascii * list (list ascii) * nat :=
  match line with
  | [] => (line, rest, 0)
  | _ => if has_escape_slash line then
           match rest with
           | [] => (removelast line, [], 1)
           | x :: rest' => match join_lines (removelast line ++ x) rest' with (l, r, n) => (l, r, S n) end
           end
         else (line, rest, 0)
  end.
(** main.cpp:103-120: the tokens of a line without the empty ones.  The tokenizer is lazy: of a comment, only the first token is read *)
Inductive tokens := TkIgnore | TkThrows | TkWords (l : list string).
Definition line_tokens (line : list ascii) : tokens :=
  match tokenize line with
  | (fs, ok) =>
      match List.filter (fun f => match f with [] => false | _ => true end) fs with
      | (c :: f) :: fs' => if ascii_dec c "#" then TkIgnore else if ok then TkWords (map string_of_list_ascii ((c :: f) :: fs')) else TkThrows
      | _ => if ok then TkIgnore else TkThrows
      end
  end.
(** main.cpp:62-73 processLine and help.cpp:75-97: the command, nothing, or the program becomes man if there is one; no registered command has an empty noun, so that the test in main.cpp:123 is whether the line was read *)
Inductive lresult (C : Type) := LCmd (c : C) | LNone | LMan (page : string).
Arguments LCmd {C}. Arguments LNone {C}. Arguments LMan {C}.
Definition is_help (a : string) : bool := existsb (String.eqb a) ["help"; "--help"; "-h"]%string.
Fixpoint erase_help (args : list string) : option (list string) :=
  match args with [] => None | a :: r => if is_help a then Some r else match erase_help r with Some r' => Some (a :: r') | None => None end end.
Definition process_line {C} (man : bool) (parse : list string -> option C) (ts : list string) : lresult C :=
  match parse ts with
  | Some c => LCmd c
  | None => match erase_help ts with
            | None => LNone
            | Some r => match r with
                        | [] => LNone
                        | noun :: _ => if String.eqb noun "" then LNone else if man then LMan ("nfdc-" +:+ noun) else LNone
                        end
            end
  end.
(** main.cpp:84-131 processIstream: the commands, the number of the line with the syntax error, man, or the exception, which nothing catches *)
Inductive batch (C : Type) := BOk (l : list C) | BSyntax (line : nat) | BMan (page : string) | BThrows.
Arguments BOk {C}. Arguments BSyntax {C}. Arguments BMan {C}. Arguments BThrows {C}.
Fixpoint read_batch {C} (process : list string -> lresult C) (fuel : nat) (count : nat) (lines : list (list ascii)) : batch C :=
  match fuel, lines with
  | S fuel', l :: rest =>
      match join_lines l rest with
      | (l', rest', n) =>
          match line_tokens l' with
          | TkThrows => BThrows
          | TkIgnore => read_batch process fuel' (S count + n) rest'
          | TkWords ts =>
              match process ts with
              | LNone => BSyntax (S count + n)
              | LMan p => BMan p
              | LCmd c => match read_batch process fuel' (S count + n) rest' with BOk cs => BOk (c :: cs) | b => b end
              end
          end
      end
  | _, _ => BOk []
  end.

(** * The program *)
(** main.cpp:156-183: [exec] runs a command and gives its exit code, None for an exception; None in the list: an empty std::function, which throws bad_function_call; the result: the exit code and the commands that were started *)
Fixpoint run_commands {C} (exec : C -> option N) (l : list (option C)) : N * list C :=
  match l with
  | [] => (0%N, [])
  | None :: _ => (1%N, [])
  | Some c :: l' => match exec c with
                    | None => (1%N, [c])
                    | Some n => if (n =? 0)%N then match run_commands exec l' with (m, cs) => (m, c :: cs) end else (n, [c])
                    end
  end.
Inductive outcome (C : Type) := OExit (code : N) (started : list C) | OMan (page : string) | OAbort.
Arguments OExit {C}. Arguments OMan {C}. Arguments OAbort {C}.
Definition exits {C} (r : N * list C) : outcome C := OExit (fst r) (snd r).
(** main.cpp:38-183; [file]: the lines of the batch file, None if it cannot be opened *)
Definition nfdc_main {C} (man : bool) (parse : list string -> option C) (exec : C -> option N) (file : option (list (list ascii))) (args : list string) : outcome C :=
  match args with
  | [] => OExit 0 []
  | a :: rest =>
      if String.eqb a "-V" || String.eqb a "--version" then OExit 0 []
      else if String.eqb a "-f" || String.eqb a "--batch" then
        match rest with
        | [_] => match file with
                 | None => OExit 2 []
                 | Some lines => match read_batch (process_line man parse) (length lines) 0 lines with
                                 | BOk cs => exits (run_commands exec (map Some cs))
                                 | BSyntax _ => OExit 2 []
                                 | BMan p => OMan p
                                 | BThrows => OAbort
                                 end
                 end
        | _ => OExit 2 []
        end
      else match process_line man parse args with
           | LCmd c => exits (run_commands exec [Some c])
           | LNone => exits (run_commands exec [None])
           | LMan p => OMan p
           end
  end.
