(** C80: the command line of nfdc. *)
From Coq Require Import String Ascii.
From stdpp Require Import gmap strings.
From Verif Require Import Lib Nc_Model Nc_Spec Nc_Proof.
Open Scope list_scope.
Set Default Proof Using "Type".
Local Notation chars := list_ascii_of_string.

Section nfdc.
Context {X : Type} (ext : vtype -> string -> option X).
(** A text is accepted for an argument exactly if it stands for a value of its type, and gives that value. *)
Theorem C80_values t s v : parse_value ext t s = Some v <-> means ext t s v.
Proof. apply parse_value_means. Qed.
(** A command line is accepted exactly if it can be read as assignments of which every required argument has one; the last assignment of an argument counts, and no other argument has a value. *)
Theorem C80_parse d toks ca : parse_args ext d toks = Some ca <->
  exists asg, reads ext (d_args d) toks (d_pos d) asg /\ ca = list_to_map (rev asg) /\ forall n a, d_args d !! n = Some a -> a_required a = true -> n ∈ asg.*1.
Proof. apply parse_args_spec. Qed.
(** It can be read in one way only. *)
Theorem C80_unambiguous args toks pos asg asg' : reads ext args toks pos asg -> reads ext args toks pos asg' -> asg = asg'.
Proof.
  intros H. revert asg'. set (d := Cdef "" "" args []). assert (Hm : forall ty s x y, means ext ty s x -> means ext ty s y -> x = y).
  { intros ty s x y H1%C80_values H2%C80_values. congruence. }
  induction H as [pos|t r rest pos asg Ha H IH|t ty r v x rest pos asg Ha Hn1 Hn2 Hv H IH|t rest sk p r pos Hn Hs Hp|t rest sk p ty r x pos asg Hn Hs Hp Hty Hv H IH]; intros asg' H'.
  - inversion H'; done.
  - inversion H'; subst; simplify_eq; try done; [f_equal; by apply IH|..]; (destruct H4 + destruct H3 + destruct H2); exists (Arg TNone r); done.
  - inversion H'; subst; simplify_eq; try done; [f_equal; [f_equal; by eapply Hm|by apply IH]|..]; (destruct H4 + destruct H3 + destruct H2); exists (Arg ty r); done.
  - assert (try_positional ext d t (sk ++ p :: pos) = PAny p) as T by (apply try_any; eauto 10).
    destruct (reads_inv ext d _ _ _ _ Hn H') as [(p' & T' & ->)|(p' & x' & pos' & asg & T' & _)]; congruence.
  - assert (try_positional ext d t (sk ++ p :: pos) = PVal p x pos) as T by (apply try_val; eauto 10).
    destruct (reads_inv ext d _ _ _ _ Hn H') as [(p' & T' & ->)|(p' & x' & pos' & asg2 & T' & H2 & ->)]; [congruence|]. rewrite T in T'. injection T' as <- <- <-. f_equal. by apply IH.
Qed.
(** Every argument that has a value is one of the command, and its value is of its type. *)
Theorem C80_typed d toks ca n v : parse_args ext d toks = Some ca -> ca !! n = Some v ->
  exists a, d_args d !! n = Some a /\ ((a_type a = TNone /\ v = VBool true /\ n ∈ toks) \/ (a_type a = TAny /\ exists pre l, v = VList l /\ l <> [] /\ toks = pre ++ l) \/ (exists s, s ∈ toks /\ means ext (a_type a) s v)).
Proof.
  intros (asg & H & -> & _)%C80_parse E. apply elem_of_list_to_map_2, elem_of_list_In, in_rev, elem_of_list_In in E.
  revert n v E. induction H as [pos|t r rest pos asg Ha H IH|t ty r v x rest pos asg Ha Hn1 Hn2 Hv H IH|t rest sk p r pos Hn Hs Hp|t rest sk p ty r x pos asg Hn Hs Hp Hty Hv H IH]; intros n w E.
  - by apply elem_of_nil in E.
  - apply elem_of_cons in E as [[= -> ->]|E]; [exists (Arg TNone r); split; [done|]; left; set_solver|].
    destruct (IH _ _ E) as (a & Ea & [(? & ? & ?)|[(? & pre & l & ? & ? & ->)|(s & ? & ?)]]); exists a; (split; [done|]); [left; set_solver|right; left|right; right; exists s; set_solver].
    split; [done|]. by exists (t :: pre), l.
  - apply elem_of_cons in E as [[= -> ->]|E]; [exists (Arg ty r); split; [done|]; right; right; exists v; set_solver|].
    destruct (IH _ _ E) as (a & Ea & [(? & ? & ?)|[(? & pre & l & ? & ? & ->)|(s & ? & ?)]]); exists a; (split; [done|]); [left; set_solver|right; left|right; right; exists s; set_solver].
    split; [done|]. by exists (t :: v :: pre), l.
  - apply elem_of_list_singleton in E as [= -> ->]. exists (Arg TAny r). split; [done|]. right; left. split; [done|]. by exists [], (t :: rest).
  - apply elem_of_cons in E as [[= -> ->]|E]; [exists (Arg ty r); split; [done|]; right; right; exists t; set_solver|].
    destruct (IH _ _ E) as (a & Ea & [(? & ? & ?)|[(? & pre & l & ? & ? & ->)|(s & ? & ?)]]); exists a; (split; [done|]); [left; set_solver|right; left|right; right; exists s; set_solver].
    split; [done|]. by exists (t :: pre), l.
Qed.
(** Arguments can be given by their names in every order. *)
Theorem C80_by_name d (l : list (string * string * val (X:=X))) :
  Forall (fun '(n, s, v) => exists ty r, d_args d !! n = Some (Arg ty r) /\ ty <> TAny /\ ty <> TNone /\ means ext ty s v) l ->
  (forall n a, d_args d !! n = Some a -> a_required a = true -> n ∈ (l.*1).*1) ->
  parse_args ext d (flat_map (fun '(n, s, _) => [n; s]) l) = Some (list_to_map (rev (map (fun '(n, _, v) => (n, v)) l))).
Proof.
  intros H R. apply C80_parse. exists (map (fun '(n, _, v) => (n, v)) l). split; [|split; [done|]].
  - clear R. generalize (d_pos d). induction H as [|[[n s] v] l (ty & r & Ha & H1 & H2 & Hm) _ IH]; intros pos; cbn [flat_map map app]; [constructor|]. by econstructor.
  - intros n a Ha Hr. specialize (R _ _ Ha Hr). clear - R. induction l as [|[[m s] v] l IH]; [done|]. cbn in *. rewrite elem_of_cons in *. destruct R; [by left|right; by apply IH].
Qed.
(** Declaring an argument: its name must be new, a flag cannot be positional, and the argument that takes the rest of the line must be. *)
Theorem C80_declare name t required positional d d' : add_arg name t required positional d = Some d' <->
  d_args d !! name = None /\ (positional = true -> t <> TNone) /\ (positional = false -> t <> TAny) /\
  d' = Cdef (d_noun d) (d_verb d) (<[name := Arg t required]> (d_args d)) (if positional then d_pos d ++ [name] else d_pos d).
Proof.
  unfold add_arg. destruct (d_args d !! name); [split; [done|]; by intros [? _]|]. destruct positional.
  - destruct (decide (t = TNone)) as [->|]; [split; [done|]; by intros (_ & H & _); destruct (H eq_refl)|]. split; [by intros [= <-]|]. by intros (_ & _ & _ & ->).
  - destruct (decide (t = TAny)) as [->|]; [split; [done|]; by intros (_ & _ & H & _); destruct (H eq_refl)|]. split; [by intros [= <-]|]. by intros (_ & _ & _ & ->).
Qed.
(** The first two words choose the command; a missing word counts as empty. The command runs with what the rest of the words give. *)
Theorem C80_command (t : table) toks c : parse_command ext t toks = Some c <->
  exists d ca, t !! (default "" (toks !! 0%nat), default "" (toks !! 1%nat)) = Some (Centry d true) /\ parse_args ext d (drop 2 toks) = Some ca /\ c = Command (d_noun d) (d_verb d) ca.
Proof.
  unfold parse_command. assert (match toks with n :: _ => n | [] => EmptyString end = default "" (toks !! 0%nat)) as -> by by destruct toks.
  assert (match toks with _ :: v :: _ => v | _ => EmptyString end = default "" (toks !! 1%nat)) as -> by by destruct toks as [|? [|]].
  destruct (t !! _) as [[d b]|]; [|split; [done|]; by intros (? & ? & ? & _)]. cbn [ce_one_shot ce_def]. destruct b; [|split; [done|]; by intros (? & ? & ? & _)].
  destruct (parse_args ext d (drop 2 toks)) as [ca|] eqn:E.
  - split; [intros [= <-]; by exists d, ca|]. intros (d' & ca' & [= <-] & E' & ->). by simplify_eq.
  - split; [done|]. intros (d' & ca' & [= <-] & E' & ->). congruence.
Qed.
Theorem C80_register d one_shot (t : table) : add_command d one_shot t !! (d_noun d, d_verb d) = Some (Centry d one_shot) /\
  forall k, k <> (d_noun d, d_verb d) -> add_command d one_shot t !! k = t !! k.
Proof. unfold add_command. split; [apply lookup_insert|]. intros k H. by apply lookup_insert_ne. Qed.
Theorem C80_alias noun verb verb2 (t t' : table) : add_alias noun verb verb2 t = Some t' <-> exists c, t !! (noun, verb) = Some c /\ t' = <[(noun, verb2) := c]> t.
Proof.
  unfold add_alias. destruct (t !! (noun, verb)) as [c|]; [|split; [done|]; by intros (? & ? & _)]. split; [intros [= <-]; by exists c|]. by intros (? & [= <-] & ->).
Qed.
End nfdc.

(** * The lines of a batch file *)
(** A line gives words exactly if it has fields; its words are those that are not empty; it is ignored if there are none or the first begins with [#]. *)
Theorem C80_line l fs : fields false l fs -> line_tokens l = match List.filter nonempty fs with w :: ws => if decide (head w = Some "#"%char) then TkIgnore else TkWords (map string_of_list_ascii (w :: ws)) | [] => TkIgnore end.
Proof. apply line_fields. Qed.
Theorem C80_line_words l ws : line_tokens l = TkWords ws -> exists fs, fields false l fs /\ ws = map string_of_list_ascii (List.filter nonempty fs).
Proof. apply line_words. Qed.
Theorem C80_line_throws l : line_tokens l = TkThrows -> forall fs, ~ fields false l fs.
Proof. apply line_throws. Qed.
(** A line that begins with a word which is no comment, and has no fields, makes the tokenizer throw. *)
Theorem C80_line_bad l x w c rest : Forall (fun c => c ∈ separators) l -> Forall (fun c => c ∉ specials) (x :: w) -> x <> "#"%char -> c ∈ separators ->
  (forall fs, ~ fields false (l ++ x :: w ++ c :: rest) fs) -> line_tokens (l ++ x :: w ++ c :: rest) = TkThrows.
Proof.
  intros Hl Hw Hx Hc Hn. destruct (fields_lazy false _ c rest Hw Hc []) as (fs & ok & E). specialize (E eq_refl). cbn [app] in E.
  destruct (seps_from l (x :: w ++ c :: rest) Hl) as (pre & H). destruct (H _ _ E) as [E' F].
  assert (tokenize (l ++ x :: w ++ c :: rest) = (pre ++ (x :: w) :: fs, ok)) as T. { rewrite <- E'. unfold tokenize. by destruct l. }
  destruct ok; [destruct (tokenize_ok _ _ T) as (fs' & H' & _); by destruct (Hn fs')|].
  unfold line_tokens. rewrite T. fold nonempty. rewrite List.filter_app, F. cbn. by destruct (ascii_dec x "#").
Qed.
(** Every list of words can be written: each between quotes, the quotes and the backslashes in it escaped. *)
Theorem C80_round_trip w ws : Forall (fun w => w <> []) (w :: ws) -> head w <> Some "#"%char -> line_tokens (quote_line (w :: ws)) = TkWords (map string_of_list_ascii (w :: ws)).
Proof. apply line_quoted. Qed.
(** Of a comment, no more than the first word is read. *)
Theorem C80_comment l w c rest : Forall (fun c => c ∈ separators) l -> Forall (fun c => c ∉ specials) w -> c ∈ separators -> line_tokens (l ++ "#"%char :: w ++ c :: rest) = TkIgnore.
Proof. apply line_comment_lazy. Qed.
(** Which lines are read as one: those of an odd number of backslashes lose their last character and are put together with the next, as long as the number is odd. *)
Theorem C80_join l rest :
  (Nat.odd (slashes l) = false -> join_lines l rest = (l, rest, 0%nat)) /\
  (Nat.odd (slashes l) = true -> join_lines l [] = (removelast l, [], 1%nat)) /\
  (forall x, Nat.odd (slashes l) = true -> join_lines l (x :: rest) = match join_lines (removelast l ++ x) rest with (l', r, n) => (l', r, S n) end).
Proof. repeat split; [apply join_even|apply join_end|intros x; apply join_odd]. Qed.
Section batch.
Context {C : Type} (process : list string -> lresult C).
(** A batch file that is written without backslashes except at the ends of lines gives its commands, in order. *)
Theorem C80_batch_partial items wss cs : Forall2 item_words items wss -> Forall2 (fun w c => process w = LCmd c) (omap id wss) cs ->
  read_batch process (length (concat (map item_lines items))) 0 (concat (map item_lines items)) = BOk cs.
Proof.
  intros H Hc. destruct (read_items process items wss H cs [] (length (concat (map item_lines items))) 0 Hc) as (fuel & _ & E); [by rewrite app_nil_r|].
  rewrite app_nil_r in E. by rewrite E, read_nil, app_nil_r.
Qed.
(** Its first command that cannot be read is reported, with the number of its last line; the first that asks for help ends the reading. *)
Theorem C80_syntax_partial items wss cs i w rest : Forall2 item_words items wss -> Forall2 (fun w c => process w = LCmd c) (omap id wss) cs -> item_words i (Some w) ->
  let lines := concat (map item_lines items) ++ item_lines i ++ rest in
  (process w = LNone -> read_batch process (length lines) 0 lines = BSyntax (length (concat (map item_lines items)) + length (item_lines i))) /\
  (forall p, process w = LMan p -> read_batch process (length lines) 0 lines = BMan p).
Proof.
  intros H Hc Hi lines. destruct (read_items process items wss H cs (item_lines i ++ rest) (length lines) 0 Hc) as (fuel & Hf & E); [done|].
  destruct (read_stop process i w rest fuel (0 + length (concat (map item_lines items))) Hi Hf) as [S1 S2]. fold lines in E. split.
  - intros Hw. rewrite E, S1 by done. done.
  - intros p Hw. by rewrite E, (S2 p).
Qed.
End batch.

(** * The program *)
(** A line that is not a command: the first word of help in it is taken away, and the first word of what is left names the manual page. *)
Theorem C80_process {C} man (parse : list string -> option C) ts :
  (forall c, parse ts = Some c -> process_line man parse ts = LCmd c) /\
  (parse ts = None -> Forall (fun a => a ∉ ["help"; "--help"; "-h"]%string) ts -> process_line man parse ts = LNone) /\
  (forall pre h post, parse ts = None -> ts = pre ++ h :: post -> Forall (fun a => a ∉ ["help"; "--help"; "-h"]%string) pre -> h ∈ ["help"; "--help"; "-h"]%string ->
     process_line man parse ts = match head (pre ++ post) with Some noun => if decide (noun <> ""%string /\ man = true) then LMan ("nfdc-" +:+ noun) else LNone | None => LNone end).
Proof.
  assert (Hh : forall a, is_help a = true <-> a ∈ ["help"; "--help"; "-h"]%string) by (intros; apply existsb_eqb_in).
  unfold process_line. repeat split.
  - by intros c ->.
  - intros -> H. assert (erase_help ts = None) as ->; [|done]. induction H as [|a l Ha _ IH]; [done|]. cbn [erase_help]. destruct (is_help a) eqn:E; [by apply Hh in E|]. by rewrite IH.
  - intros pre h post -> -> Hp Hx. assert (erase_help (pre ++ h :: post) = Some (pre ++ post)) as ->.
    { induction Hp as [|a l Ha _ IH]; cbn [app erase_help]; [by rewrite (proj2 (Hh h))|]. destruct (is_help a) eqn:E; [by apply Hh in E|]. by rewrite IH. }
    destruct (pre ++ post) as [|noun r]; [done|]. cbn [head]. destruct (String.eqb_spec noun "") as [->|Hn]; [rewrite decide_False by tauto; done|]. destruct man; [by rewrite decide_True|by rewrite decide_False by (intros [_ ?]; done)].
Qed.
(** Commands run one after the other until one fails, and the exit code is its code, 1 for an exception. *)
Theorem C80_run {C} (exec : C -> option N) cs n st : run_commands exec (map Some cs) = (n, st) <->
  (Forall (fun c => exec c = Some 0%N) cs /\ n = 0%N /\ st = cs) \/
  (exists pre c post, cs = pre ++ c :: post /\ Forall (fun c => exec c = Some 0%N) pre /\ st = pre ++ [c] /\ ((exec c = None /\ n = 1%N) \/ (exec c = Some n /\ n <> 0%N))).
Proof. apply run_spec. Qed.
Section main.
Context {C : Type} (man : bool) (parse : list string -> option C) (exec : C -> option N).
Theorem C80_information file : nfdc_main man parse exec file [] = OExit 0 [] /\ forall a rest, a = "-V"%string \/ a = "--version"%string -> nfdc_main man parse exec file (a :: rest) = OExit 0 [].
Proof. split; [done|]. intros a rest [-> | ->]; done. Qed.
(** One command: it runs with the words as they are. *)
Theorem C80_one_shot file a rest c : a ∉ ["-V"; "--version"; "-f"; "--batch"]%string -> parse (a :: rest) = Some c ->
  nfdc_main man parse exec file (a :: rest) = OExit (default 1%N (exec c)) [c].
Proof.
  rewrite !not_elem_of_cons. intros (H1 & H2 & H3 & H4 & _) E. unfold nfdc_main. rewrite (proj2 (String.eqb_neq _ _) H1), (proj2 (String.eqb_neq _ _) H2), (proj2 (String.eqb_neq _ _) H3), (proj2 (String.eqb_neq _ _) H4). cbn [orb].
  unfold process_line. rewrite E. unfold exits. cbn [run_commands]. destruct (exec c) as [n|]; [|done]. destruct (N.eqb_spec n 0) as [->|]; done.
Qed.
(** A batch: nothing runs unless every line can be read; then the commands run until one fails. *)
Theorem C80_batch_runs f o lines : o = "-f"%string \/ o = "--batch"%string ->
  nfdc_main man parse exec (Some lines) [o; f] =
    match read_batch (process_line man parse) (length lines) 0 lines with
    | BOk cs => OExit (fst (run_commands exec (map Some cs))) (snd (run_commands exec (map Some cs)))
    | BSyntax _ => OExit 2 []
    | BMan p => OMan p
    | BThrows => OAbort
    end.
Proof. by intros [-> | ->]. Qed.
Theorem C80_batch_usage o rest file : o = "-f"%string \/ o = "--batch"%string -> length rest <> 1%nat \/ file = None -> nfdc_main man parse exec file (o :: rest) = OExit 2 [].
Proof. intros [-> | ->] [H| ->]; (destruct rest as [|? [|]]; [done|try done|done]); done. Qed.
(** Such a batch file, when every command can be read, from the file to the exit code. *)
Theorem C80_batch_file_partial f o items wss cs n st : o = "-f"%string \/ o = "--batch"%string -> Forall2 item_words items wss -> Forall2 (fun w c => parse w = Some c) (omap id wss) cs ->
  nfdc_main man parse exec (Some (concat (map item_lines items))) [o; f] = OExit n st <->
  (Forall (fun c => exec c = Some 0%N) cs /\ n = 0%N /\ st = cs) \/
  (exists pre c post, cs = pre ++ c :: post /\ Forall (fun c => exec c = Some 0%N) pre /\ st = pre ++ [c] /\ ((exec c = None /\ n = 1%N) \/ (exec c = Some n /\ n <> 0%N))).
Proof.
  intros Ho Hi Hc. rewrite (C80_batch_runs f o) by done. rewrite (C80_batch_partial (process_line man parse) items wss cs Hi).
  - rewrite <- (C80_run exec cs n st). destruct (run_commands exec (map Some cs)) as [m l]. cbn. split; [by intros [= <- <-]|by intros [= <- <-]].
  - eapply Forall2_impl; [exact Hc|]. intros w c E. unfold process_line. by rewrite E.
Qed.
(** When one cannot be read, nothing runs and the exit code is 2. *)
Theorem C80_batch_error_partial f o items wss cs i w rest : o = "-f"%string \/ o = "--batch"%string -> Forall2 item_words items wss -> Forall2 (fun w c => parse w = Some c) (omap id wss) cs ->
  item_words i (Some w) -> parse w = None -> Forall (fun a => a ∉ ["help"; "--help"; "-h"]%string) w ->
  nfdc_main man parse exec (Some (concat (map item_lines items) ++ item_lines i ++ rest)) [o; f] = OExit 2 [].
Proof.
  intros Ho Hi Hc Hw Hp Hh. rewrite (C80_batch_runs f o) by done. destruct (C80_syntax_partial (process_line man parse) items wss cs i w rest Hi) as [S _]; [|done|].
  - eapply Forall2_impl; [exact Hc|]. intros w' c E. unfold process_line. by rewrite E.
  - rewrite S; [done|]. by apply C80_process.
Qed.
End main.

(** * Where it is not as expected *)
Definition no_ext (t : vtype) (s : string) : option unit := if decide (t = TUri) then if String.eqb s "udp://h" then Some tt else None else None.
Definition route_add : cdef := Cdef "route" "add" {[ "prefix"%string := Arg TString true; "nexthop"%string := Arg TFaceId true; "cost"%string := Arg TUnsigned false; "no-inherit"%string := Arg TNone false ]} ["prefix"; "nexthop"]%string.
(** A negative number is taken for a face id. *)
Theorem C80_face_id_refuted : parse_value no_ext TFaceId "-1" = Some (VUint 18446744073709551615) /\ parse_value no_ext TUnsigned "-1" = None.
Proof. split; vm_compute; reflexivity. Qed.
(** An argument that is given twice, and differently, is accepted. *)
Theorem C80_twice_refuted : exists ca, parse_args no_ext route_add ["/A"; "300"; "cost"; "1"; "cost"; "2"]%string = Some ca /\ ca !! "cost"%string = Some (VUint 2).
Proof. eexists. split; [vm_compute; reflexivity|]. vm_compute. reflexivity. Qed.
(** Two lines that have words each, of which the first uses a backslash as the manual says: they are read as one, of other words. *)
Theorem C80_escape_refuted : exists l1 l2 w1 w2 w, line_tokens l1 = TkWords w1 /\ line_tokens l2 = TkWords w2 /\ read_batch (@LCmd (list string)) 2 0 [l1; l2] = BOk [w] /\
  w1 = ["route"; "add"; "/A B"; "300"]%string /\ w2 = ["cs"; "erase"; "/C"; "5"]%string /\ w = ["route"; "add"; "/A B"; "30cs"; "erase"; "/C"]%string.
Proof. exists (chars "route add /A\ B 300"), (chars "cs erase /C 5"). do 3 eexists. repeat split; vm_compute; reflexivity. Qed.
(** A backslash in a comment swallows the command of the next line. *)
Theorem C80_comment_refuted : read_batch (@LCmd (list string)) 2 0 [chars "# see C:\conf"; chars "face list"] = BOk [] /\ line_tokens (chars "face list") = TkWords ["face"; "list"]%string.
Proof. split; vm_compute; reflexivity. Qed.
(** A comment can abort the program. *)
Theorem C80_abort_refuted : nfdc_main true (@Some (list string)) (fun _ => Some 0%N) (Some [chars "#\a\b"]) ["-f"; "x"]%string = OAbort.
Proof. vm_compute. reflexivity. Qed.
(** Either kind of quote ends a quotation of the other kind. *)
Theorem C80_quote_refuted : line_tokens (chars """a'b c""") = TkWords ["ab"; "c"]%string.
Proof. vm_compute. reflexivity. Qed.
(** Asking for the list of commands has the exit code 1, and a wrong command line too, although it is 2 in a batch file. *)
Theorem C80_help_exit_refuted {C} man (parse : list string -> option C) exec file : parse ["--help"]%string = None -> nfdc_main man parse exec file ["--help"]%string = OExit 1 [].
Proof. intros H. unfold nfdc_main. cbn [String.eqb Ascii.eqb Bool.eqb orb]. unfold process_line. by rewrite H. Qed.
Theorem C80_usage_exit_refuted : nfdc_main true (fun ts => if decide (ts = ["cs"; "info"]%string) then Some tt else None) (fun _ => Some 0%N) None ["cs"; "inof"]%string = OExit 1 [] /\
  nfdc_main true (fun ts => if decide (ts = ["cs"; "info"]%string) then Some tt else None) (fun _ => Some 0%N) (Some [chars "cs inof"]) ["-f"; "x"]%string = OExit 2 [].
Proof. split; vm_compute; reflexivity. Qed.
(** The exit code of a batch of which a command fails is not 2, as the manual has it, but that of the command. *)
Theorem C80_batch_exit_refuted : nfdc_main true (@Some (list string)) (fun c => if decide (c = ["b"]%string) then Some 1%N else Some 0%N) (Some [chars "a"; chars "b"; chars "c"]) ["-f"; "x"]%string = OExit 1 [["a"]; ["b"]]%string.
Proof. vm_compute. reflexivity. Qed.

(** * Examples *)
Example C80_ex_parse : exists ca, parse_args no_ext route_add ["/A"; "udp://h"; "no-inherit"; "cost"; "+7"]%string = Some ca /\
  ca !! "prefix"%string = Some (VStr "/A") /\ ca !! "nexthop"%string = Some (VExt tt) /\ ca !! "cost"%string = Some (VUint 7) /\ ca !! "no-inherit"%string = Some (VBool true).
Proof. eexists. split; [vm_compute; reflexivity|]. repeat split; vm_compute; reflexivity. Qed.
Example C80_ex_required : parse_args no_ext route_add ["/A"; "cost"; "7"]%string = None /\ parse_args no_ext route_add ["cost"; "7"; "/A"; "1"]%string = None.
Proof. split; vm_compute; reflexivity. Qed.
Example C80_ex_items : exists wss, Forall2 item_words [IBlank [" "%char]; IComment (chars " x"); IWords [chars "cs"; chars "a b"]; ISplit [chars "face "] (chars "list")] wss /\ omap id wss = [["cs"; "a b"]; ["face"; "list"]]%string.
Proof.
  exists [None; None; Some ["cs"; "a b"]%string; Some ["face"; "list"]%string]. split; [|done].
  constructor; [apply iw_blank; repeat constructor|]. constructor; [apply iw_comment; cbn; rewrite !elem_of_cons, elem_of_nil; intros [?|[?|[]]]; done|].
  constructor. { apply (iw_words [chars "cs"; chars "a b"]); [done| |intros w ws' [= <- <-]; done].
    repeat (constructor; [split; [done|]; repeat (constructor; [split; [rewrite <- is_quote_spec; done|done]|]); constructor|]). constructor. }
  constructor; [|constructor]. apply (iw_split [chars "face "] (chars "list") [chars "face"; chars "list"] (chars "face") [chars "list"]); [| |done|done].
  - repeat (constructor; [cbn; rewrite !elem_of_cons, elem_of_nil; intuition done|]). constructor.
  - destruct (ok_fields 100 false (chars "face list") [] [chars "face"; chars "list"]) as (f & r & E & H); [vm_compute; lia|vm_compute; reflexivity|]. injection E as <- <-. exact H.
Qed.
Example C80_ex_escape : line_tokens (chars "strategy set '/a b' x\ y ""q\""r""") = TkWords ["strategy"; "set"; "/a b"; "x y"; "q""r"]%string.
Proof. vm_compute. reflexivity. Qed.
Print Assumptions C80_values.
Print Assumptions C80_parse.
Print Assumptions C80_unambiguous.
Print Assumptions C80_typed.
Print Assumptions C80_by_name.
Print Assumptions C80_declare.
Print Assumptions C80_command.
Print Assumptions C80_register.
Print Assumptions C80_alias.
Print Assumptions C80_line.
Print Assumptions C80_line_words.
Print Assumptions C80_line_throws.
Print Assumptions C80_round_trip.
Print Assumptions C80_comment.
Print Assumptions C80_join.
Print Assumptions C80_batch_partial.
Print Assumptions C80_syntax_partial.
Print Assumptions C80_process.
Print Assumptions C80_run.
Print Assumptions C80_information.
Print Assumptions C80_one_shot.
Print Assumptions C80_batch_runs.
Print Assumptions C80_batch_usage.
Print Assumptions C80_line_bad.
Print Assumptions C80_batch_file_partial.
Print Assumptions C80_batch_error_partial.
