(** The configuration file.  The parser of the INFO format (boost::property_tree) is not modelled: a configuration is the
    tree it gives. *)
From Coq Require Import String Ascii.
From stdpp Require Import gmap strings.
From Verif Require Import Lib.
Open Scope string_scope.

(** boost::property_tree::ptree (ConfigSection): a text and named children, in the order in which they were written *)
Inductive ptree := PTree (value : string) (children : list (string * ptree)).
Definition pt_value (t : ptree) : string := match t with PTree v _ => v end.
Definition pt_children (t : ptree) : list (string * ptree) := match t with PTree _ l => l end.
(** get_child, get_child_optional, for a key without '.': the first child of that name *)
Definition pt_child (k : string) (t : ptree) : option ptree :=
  match List.find (fun x => String.eqb (fst x) k) (pt_children t) with Some (_, c) => Some c | None => None end.

(** * common/config-file.cpp *)
(** how a handler ends; [S] is what it works on.  It may throw ConfigFile::Error (or another exception) after it changed
    something; std::out_of_range is told apart, since ConfigFile::process catches it *)
Inductive outcome (S : Type) := Done (s : S) | Throws (s : S) | OutOfRange (s : S).
Arguments Done {S} s.
Arguments Throws {S} s.
Arguments OutOfRange {S} s.
Section Process.
Context {S : Type}.
Definition handler : Type := ptree -> bool -> S -> outcome S.
(** config-file.cpp:40-57: true if an unknown section is ignored; nfd.cpp:116-129 ignoreRibAndLogSections *)
Definition unknown_callback : Type := string -> bool.
(** config-file.cpp:121-136 process *)
Fixpoint process_sections (subscribed : string -> option handler) (ignored : unknown_callback) (dry : bool) (l : list (string * ptree)) (s : S) : outcome S :=
  match l with
  | [] => Done s
  | (k, t) :: l' =>
      match subscribed k with
      | Some h =>
          match h t dry s with
          | Done s' => process_sections subscribed ignored dry l' s'
          | Throws s' => Throws s'
          | OutOfRange s' => if ignored k then process_sections subscribed ignored dry l' s' else Throws s'
          end
      | None => if ignored k then process_sections subscribed ignored dry l' s else Throws s
      end
  end.
Definition process (subscribed : string -> option handler) (ignored : unknown_callback) (dry : bool) (t : ptree) (s : S) : outcome S :=
  process_sections subscribed ignored dry (pt_children t) s.
(** nfd.cpp:157-164: the file is processed twice, first as a dry run *)
Definition configure (subscribed : string -> option handler) (ignored : unknown_callback) (t : ptree) (s : S) : outcome S :=
  match process subscribed ignored true t s with
  | Done s' => process subscribed ignored false t s'
  | o => o
  end.
End Process.
Definition state_of {S} (o : outcome S) : S := match o with Done s | Throws s | OutOfRange s => s end.
Definition done_b {S} (o : outcome S) : bool := match o with Done _ => true | _ => false end.
(** config-file.cpp:59-75 parseYesNo *)
Definition parse_yes_no (t : ptree) : option bool :=
  if String.eqb (pt_value t) "yes" then Some true else if String.eqb (pt_value t) "no" then Some false else None.
(** config-file.hpp:112-126 parseNumber, for an unsigned 64-bit type: the value as it is extracted from a stream (leading
    and trailing white space, a sign, decimal digits), and no '-' in the text *)
Definition is_space (c : ascii) : bool := let n := N_of_ascii c in ((9 <=? n) && (n <=? 13) || (n =? 32))%N.
Definition digit (c : ascii) : option N := let n := N_of_ascii c in if ((48 <=? n) && (n <=? 57))%N then Some (n - 48)%N else None.
Fixpoint skip_spaces (l : list ascii) : list ascii :=
  match l with c :: l' => if is_space c then skip_spaces l' else l | [] => [] end.
Fixpoint take_digits (l : list ascii) (acc : N) : N * list ascii :=
  match l with
  | c :: l' => match digit c with Some d => take_digits l' (acc * 10 + d)%N | None => (acc, l) end
  | [] => (acc, [])
  end.
Definition starts_with_digit (l : list ascii) : bool :=
  match l with c :: _ => match digit c with Some _ => true | None => false end | [] => false end.
Definition parse_number (t : ptree) : option N :=
  let text := list_ascii_of_string (pt_value t) in
  if existsb (Ascii.eqb "-") text then None
  else
    let l := skip_spaces text in
    let l := match l with c :: l' => if Ascii.eqb c "+" then l' else l | [] => [] end in
    if starts_with_digit l then
      let (n, rest) := take_digits l 0 in
      if (2 ^ 64 <=? n)%N then None else match skip_spaces rest with [] => Some n | _ => None end
    else None.
