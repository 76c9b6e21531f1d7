(** The log section: daemon/mgmt/log-config-section.cpp, and Nfd::configureLogging, daemon/nfd.cpp:101-116. Logging::setLevel of ndn-cxx is modelled by what it does to one module; the parsing of levels is a parameter. *)
From Coq Require Import String Ascii.
From stdpp Require Import list strings.
From Verif Require Import Lib.
Open Scope list_scope.

Section log.
Context {Level : Type} (parse_level : string -> option Level) (INFO : Level).
Fixpoint has_dot (s : string) : bool := match s with EmptyString => false | String c s' => Ascii.eqb c "." || has_dot s' end.
(** a pattern that ends with a star is one for all modules that begin with the rest; ndn-cxx *)
Fixpoint pattern_matches (p m : string) : bool :=
  match p with
  | EmptyString => match m with EmptyString => true | _ => false end
  | String c p' => (Ascii.eqb c "*" && match p' with EmptyString => true | _ => false end) || match m with String d m' => Ascii.eqb c d && pattern_matches p' m' | EmptyString => false end
  end.
(** the level of one module; [set_level]: the call *)
Definition set_level (m : string) (p : string) (l : Level) (cur : Level) : Level := if pattern_matches p m then l else cur.
(** :76-83 *)
Definition pattern_of (k : string) : string := if has_dot k then k else String.append "nfd." k.
(** :69-86: the loop; the level of the module [m], and whether it throws *)
Fixpoint each (dry : bool) (m : string) (l : list (string * string)) (cur : Level) : Level * bool :=
  match l with
  | [] => (cur, true)
  | (k, v) :: l' =>
      if String.eqb k "default_level" then each dry m l' cur
      else match parse_level v with
           | None => (cur, false)
           | Some lv => each dry m l' (if dry then cur else set_level m (pattern_of k) lv cur)
           end
  end.
(** get_child_optional: the first *)
Definition first_of (k : string) (l : list (string * string)) : option string := match find (fun kv => String.eqb (fst kv) k) l with Some kv => Some (snd kv) | None => None end.
(** :44-86 onConfig *)
Definition on_log (dry : bool) (m : string) (l : list (string * string)) (cur : Level) : Level * bool :=
  match (match first_of "default_level" l with Some v => parse_level v | None => Some INFO end) with
  | None => (cur, false)
  | Some d => each dry m l (if dry then cur else set_level m "nfd.*" d cur)
  end.
(** nfd.cpp:101-116: first a dry run *)
Definition configure_logging (m : string) (l : list (string * string)) (cur : Level) : Level * bool :=
  match on_log true m l cur with (c, false) => (c, false) | (c, true) => on_log false m l c end.
End log.
