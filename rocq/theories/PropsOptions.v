(** Program options: C57 and C64.

    [base_opts lit eps100 max100] is the table of options; [lit], [eps100] and [max100] stand for
    the doubles of the defaults.  [parse_options read lit eps100 max100 fs args opts] parses the
    arguments; [fs] is the file system and [opts] the content of the options object before;
    [Running opts' vm] carries its content after and [Exited c] means that the program exits with
    code c. *)
From Coq Require Import ZArith String Ascii List.
From Verif Require Import Outcome ModelText ModelOptions SpecOptions SpecDefaults OptionsFinal.
Import ListNotations.
Local Open Scope string_scope.
Local Open Scope list_scope.
Local Open Scope Z_scope.

(** C57. Precedence: for every command line written with "--name=value", "--name value" (names in
    full or abbreviated unambiguously) and file names, and every configuration file of assignments,
    blank lines and comments, in which the options not set on the command line are set at most once:
    the value of every option is the one given on the command line if there is one, otherwise the one
    in the configuration file, otherwise its default; an option without default keeps its value. *)
Theorem C57_precedence :
  forall V (read : string -> res V) (lit : Z -> Z -> V) (eps100 max100 : V) (fs : string -> option string)
    (items : list item) (cmd : list (string * string)) (lines : list line) (f : string) (opts : members V),
  Forall2 (fun i nv => item_sets (base_opts lit eps100 max100) i (fst nv) (snd nv)) items cmd ->
  Forall (good_line (base_opts lit eps100 max100)) lines ->
  opened cmd opts f -> (fs f = Some (file_text lines) \/ f = "" /\ fs f = None /\ lines = []) ->
  NoDup (map fst cmd) -> NoDup (map fst (in_force cmd (file_sets lines))) ->
  (forall n v, In (n, v) cmd -> exists x, accepts (base_opts lit eps100 max100) read n v x) ->
  (forall n v, In (n, v) (in_force cmd (file_sets lines)) -> exists x, accepts (base_opts lit eps100 max100) read n v x) ->
  ~ In "help" (map fst cmd) -> ~ In "help" (map fst (file_sets lines)) ->
  ~ In "config_file" (map fst (in_force cmd (file_sets lines))) ->
  exists opts' vm', parse_options read lit eps100 max100 fs (flat_map item_args items) opts = Ok (Running opts' vm') /\
    forall o, In o (base_opts lit eps100 max100) ->
      (forall v, In (o_name o, v) cmd -> convert read (o_kind o) v = Ok (opts' (o_name o))) /\
      (~ In (o_name o) (map fst cmd) -> forall v, In (o_name o, v) (file_sets lines) ->
         convert read (o_kind o) v = Ok (opts' (o_name o))) /\
      (~ In (o_name o) (map fst cmd) -> ~ In (o_name o) (map fst (file_sets lines)) ->
         opts' (o_name o) = match o_default o with Some x => x | None => opts (o_name o) end).
Proof. exact pf_C57_precedence. Qed.
Print Assumptions C57_precedence.

Example C57_precedence_example :
  Forall2 (fun i nv => item_sets ex_table i (fst nv) (snd nv)) ex_items ex_sets /\
  Forall (good_line ex_table) ex_lines /\ opened ex_sets ex_fresh "run.cfg" /\ ex_fs "run.cfg" = Some (file_text ex_lines) /\
  NoDup (map fst ex_sets) /\ NoDup (map fst (in_force ex_sets (file_sets ex_lines))) /\
  (forall n v, In (n, v) ex_sets -> exists x, accepts ex_table ex_read n v x) /\
  (forall n v, In (n, v) (in_force ex_sets (file_sets ex_lines)) -> exists x, accepts ex_table ex_read n v x) /\
  ~ In "help" (map fst ex_sets) /\ ~ In "help" (map fst (file_sets ex_lines)) /\
  ~ In "config_file" (map fst (in_force ex_sets (file_sets ex_lines))).
Proof.
  exact (conj ex_items_sets (conj ex_lines_good (conj ex_opened (conj eq_refl (conj ex_nodup1 (conj ex_nodup2
    (conj ex_sets_fit (conj ex_lines_fit ex_help)))))))).
Qed.
Example C57_precedence_outcome :
  match parse_options ex_read ex_lit "2.22045e-14" "1.79769e+306" ex_fs (flat_map item_args ex_items) ex_fresh with
  | Ok (Running o _) => o "dimension" = VInt 3 /\ o "bc_x" = VString "neumann" /\ o "final_time" = VDouble "2.5" /\
                        o "save_every" = VInt 0
  | _ => False
  end.
Proof. exact ex_outcome. Qed.

(** C57. The defaults: under the hypotheses of [C57_precedence], an option that is set neither on the command line nor
    in the file has the value the documentation gives for it (the list [documented]); config_file, solution_output_file
    and petsc_options have none and keep the value of the options object.  There is no other option besides help. *)
Theorem C57_defaults :
  forall V (read : string -> res V) (lit : Z -> Z -> V) (eps100 max100 : V) (fs : string -> option string)
    (items : list item) (cmd : list (string * string)) (lines : list line) (f : string) (opts : members V),
  Forall2 (fun i nv => item_sets (base_opts lit eps100 max100) i (fst nv) (snd nv)) items cmd ->
  Forall (good_line (base_opts lit eps100 max100)) lines ->
  opened cmd opts f -> (fs f = Some (file_text lines) \/ f = "" /\ fs f = None /\ lines = []) ->
  NoDup (map fst cmd) -> NoDup (map fst (in_force cmd (file_sets lines))) ->
  (forall n v, In (n, v) cmd -> exists x, accepts (base_opts lit eps100 max100) read n v x) ->
  (forall n v, In (n, v) (in_force cmd (file_sets lines)) -> exists x, accepts (base_opts lit eps100 max100) read n v x) ->
  ~ In "help" (map fst cmd) -> ~ In "help" (map fst (file_sets lines)) ->
  ~ In "config_file" (map fst (in_force cmd (file_sets lines))) ->
  (exists opts' vm', parse_options read lit eps100 max100 fs (flat_map item_args items) opts = Ok (Running opts' vm') /\
    (forall n x, In (n, x) (documented lit eps100 max100) ->
       ~ In n (map fst cmd) -> ~ In n (map fst (file_sets lines)) -> opts' n = x) /\
    (forall n, In n undefaulted ->
       ~ In n (map fst cmd) -> ~ In n (map fst (file_sets lines)) -> opts' n = opts n)) /\
  (forall n, In n (map o_name (base_opts lit eps100 max100)) <->
     n = "help" \/ In n undefaulted \/ In n (map fst (documented lit eps100 max100))).
Proof. exact pf_C57_defaults. Qed.
Print Assumptions C57_defaults.

Example C57_defaults_example :
  In ("eps2", VDouble (ex_lit 2419753086419753 (-20))) (documented ex_lit "2.22045e-14" "1.79769e+306") /\
  ~ In "eps2" (map fst ex_sets) /\ ~ In "eps2" (map fst (file_sets ex_lines)).
Proof. exact ex_defaults. Qed.

(** C57. Unknown options on the command line are rejected with an exception, whatever stands before
    and after: a name with which no option begins, and an abbreviation that fits several options. *)
Theorem C57_unknown_option :
  forall V (read : string -> res V) (lit : Z -> Z -> V) (eps100 max100 : V) (fs : string -> option string)
    (items : list item) (cmd : list (string * string)) (n v : string) (rest : list string) (opts : members V),
  Forall2 (fun i nv => item_sets (base_opts lit eps100 max100) i (fst nv) (snd nv)) items cmd ->
  stands_for_none (base_opts lit eps100 max100) n -> v <> "" ->
  parse_options read lit eps100 max100 fs (flat_map item_args items ++ [("--" ++ n)%string] ++ rest) opts = Throw /\
  parse_options read lit eps100 max100 fs (flat_map item_args items ++ [("--" ++ n ++ "=" ++ v)%string] ++ rest) opts = Throw.
Proof. exact pf_C57_unknown_option. Qed.
Print Assumptions C57_unknown_option.

(** "--iterations" is no option, and "--domain" could be several. *)
Example C57_unknown_option_example :
  stands_for_none ex_table "iterations" /\ stands_for_none ex_table "domain" /\
  Forall2 (fun i nv => item_sets ex_table i (fst nv) (snd nv)) ex_items ex_sets.
Proof. exact (conj ex_unknown (conj ex_ambiguous ex_items_sets)). Qed.

(** C57. An assignment to a name that is not an option, anywhere in the configuration file, is
    rejected with an exception; abbreviations are not accepted there. *)
Theorem C57_unknown_in_file :
  forall V (read : string -> res V) (lit : Z -> Z -> V) (eps100 max100 : V) (fs : string -> option string)
    (items : list item) (cmd : list (string * string)) (lines : list line) (f : string) (opts : members V)
    (n b1 b2 b3 v b4 : string) (c : option string) (rest : string),
  Forall2 (fun i nv => item_sets (base_opts lit eps100 max100) i (fst nv) (snd nv)) items cmd ->
  NoDup (map fst cmd) -> (forall n v, In (n, v) cmd -> exists x, accepts (base_opts lit eps100 max100) read n v x) ->
  opened cmd opts f -> Forall (good_line (base_opts lit eps100 max100)) lines ->
  ~ In n (map o_name (base_opts lit eps100 max100)) -> n <> "" ->
  (forall k d, String.get k n = Some d -> ~ blank d /\ d <> "010"%char /\ d <> "#"%char /\ d <> "="%char /\ d <> "["%char) ->
  blanks b1 -> blanks b2 -> blanks b3 -> blanks b4 -> plain_value v -> good_comment c ->
  fs f = Some (file_text lines ++ line_text (Assign b1 n b2 b3 v b4 c) ++ nl ++ rest)%string ->
  parse_options read lit eps100 max100 fs (flat_map item_args items) opts = Throw.
Proof. exact pf_C57_unknown_in_file. Qed.
Print Assumptions C57_unknown_in_file.

Example C57_unknown_in_file_example :
  ~ In "dim" (map o_name ex_table) /\
  (forall k d, String.get k "dim" = Some d -> ~ blank d /\ d <> "010"%char /\ d <> "#"%char /\ d <> "="%char /\ d <> "["%char) /\
  parse_options ex_read ex_lit "2.22045e-14" "1.79769e+306" (fun _ => Some (file_text ex_lines ++ "dim = 3" ++ nl)%string)
    (flat_map item_args ex_items) ex_fresh = Throw.
Proof. exact (conj ex_dim (conj ex_dim_chars ex_dim_throw)). Qed.

(** C57. No option belongs to a section: after a line "[section]", whatever is assigned next is rejected
    with an exception, also if the name is that of an option.  A line "[]" is undefined behaviour. *)
Theorem C57_sections :
  forall V (read : string -> res V) (lit : Z -> Z -> V) (eps100 max100 : V) (fs : string -> option string)
    (items : list item) (cmd : list (string * string)) (lines gap : list line) (f : string) (opts : members V)
    (s e1 e2 n b1 b2 b3 v b4 : string) (c c' : option string) (rest : string),
  Forall2 (fun i nv => item_sets (base_opts lit eps100 max100) i (fst nv) (snd nv)) items cmd ->
  NoDup (map fst cmd) -> (forall n v, In (n, v) cmd -> exists x, accepts (base_opts lit eps100 max100) read n v x) ->
  opened cmd opts f -> Forall (good_line (base_opts lit eps100 max100)) lines ->
  blanks e1 -> blanks e2 -> free_of "#" s -> free_of "010" s -> good_comment c ->
  (s <> "" ->
   Forall (good_line (base_opts lit eps100 max100)) gap -> Forall (fun x => exists b t, x = Empty b t) gap ->
   n <> "" ->
   (forall k d, String.get k n = Some d -> ~ blank d /\ d <> "010"%char /\ d <> "#"%char /\ d <> "="%char /\ d <> "["%char) ->
   blanks b1 -> blanks b2 -> blanks b3 -> blanks b4 -> plain_value v -> good_comment c' ->
   fs f = Some (file_text lines ++ (e1 ++ "[" ++ s ++ "]" ++ e2 ++ comment_text c) ++ nl ++ file_text gap ++
     line_text (Assign b1 n b2 b3 v b4 c') ++ nl ++ rest)%string ->
   parse_options read lit eps100 max100 fs (flat_map item_args items) opts = Throw) /\
  (s = "" -> fs f = Some (file_text lines ++ (e1 ++ "[" ++ s ++ "]" ++ e2 ++ comment_text c) ++ nl ++ rest)%string ->
   parse_options read lit eps100 max100 fs (flat_map item_args items) opts = UB).
Proof. exact pf_C57_sections. Qed.
Print Assumptions C57_sections.

(** C57. A line of the configuration file that is not blank and contains no assignment is rejected with an
    exception. *)
Theorem C57_no_assignment :
  forall V (read : string -> res V) (lit : Z -> Z -> V) (eps100 max100 : V) (fs : string -> option string)
    (items : list item) (cmd : list (string * string)) (lines : list line) (f : string) (opts : members V)
    (t : string) (c : option string) (rest : string),
  Forall2 (fun i nv => item_sets (base_opts lit eps100 max100) i (fst nv) (snd nv)) items cmd ->
  NoDup (map fst cmd) -> (forall n v, In (n, v) cmd -> exists x, accepts (base_opts lit eps100 max100) read n v x) ->
  opened cmd opts f -> Forall (good_line (base_opts lit eps100 max100)) lines ->
  ~ blanks t -> free_of "#" t -> free_of "010" t -> free_of "=" t -> free_of "[" t -> good_comment c ->
  fs f = Some (file_text lines ++ (t ++ comment_text c) ++ nl ++ rest)%string ->
  parse_options read lit eps100 max100 fs (flat_map item_args items) opts = Throw.
Proof. exact pf_C57_no_assignment. Qed.
Print Assumptions C57_no_assignment.

(** bc_y is an option, but not after "[grid]". *)
Example C57_sections_example :
  parse_options ex_read ex_lit "2.22045e-14" "1.79769e+306"
    (fun _ => Some (file_text ex_lines ++ "[grid] # size" ++ nl ++ "bc_y = neumann" ++ nl)%string) (flat_map item_args ex_items) ex_fresh = Throw /\
  parse_options ex_read ex_lit "2.22045e-14" "1.79769e+306"
    (fun _ => Some (file_text ex_lines ++ "[]" ++ nl)%string) (flat_map item_args ex_items) ex_fresh = UB /\
  parse_options ex_read ex_lit "2.22045e-14" "1.79769e+306"
    (fun _ => Some (file_text ex_lines ++ "dimension 3" ++ nl)%string) (flat_map item_args ex_items) ex_fresh = Throw /\
  Forall2 (fun i nv => item_sets ex_table i (fst nv) (snd nv)) ex_items ex_sets /\ Forall (good_line ex_table) ex_lines.
Proof. exact (conj ex_sec1 (conj ex_sec2 (conj ex_sec3 (conj ex_items_sets ex_lines_good)))). Qed.

(** C57. An option given twice on the command line, or with a text that is not a value of its type,
    is rejected with an exception. *)
Theorem C57_bad_command_line :
  forall V (read : string -> res V) (lit : Z -> Z -> V) (eps100 max100 : V) (fs : string -> option string)
    (items : list item) (cmd : list (string * string)) (opts : members V),
  (forall s, read s = Throw \/ exists v, read s = Ok v) ->
  Forall2 (fun i nv => item_sets (base_opts lit eps100 max100) i (fst nv) (snd nv)) items cmd ->
  (~ NoDup (map fst cmd) \/ exists n v, In (n, v) cmd /\ forall x, ~ accepts (base_opts lit eps100 max100) read n v x) ->
  parse_options read lit eps100 max100 fs (flat_map item_args items) opts = Throw.
Proof. exact pf_C57_bad_command_line. Qed.
Print Assumptions C57_bad_command_line.

Example C57_bad_command_line_example :
  (forall s, ex_read s = Throw \/ exists v, ex_read s = Ok v) /\
  Forall2 (fun i nv => item_sets ex_table i (fst nv) (snd nv)) [Joined "dim" "3"; Joined "dimension" "3"] [("dimension", "3"); ("dimension", "3")] /\
  ~ NoDup (map fst [("dimension", "3"); ("dimension", "3")]) /\
  Forall2 (fun i nv => item_sets ex_table i (fst nv) (snd nv)) [Joined "cfl" "abc"] [("cfl", "abc")] /\
  (forall x, ~ accepts ex_table ex_read "cfl" "abc" x).
Proof. exact (conj ex_read_total (conj ex_twice (conj ex_twice_dup (conj ex_abc ex_abc_not)))). Qed.

(** C57. A configuration file that sets an option twice, or to a text that is not a value of its
    type, is rejected with an exception, unless the command line sets that option. *)
Theorem C57_bad_file :
  forall V (read : string -> res V) (lit : Z -> Z -> V) (eps100 max100 : V) (fs : string -> option string)
    (items : list item) (cmd : list (string * string)) (lines : list line) (f : string) (opts : members V),
  (forall s, read s = Throw \/ exists v, read s = Ok v) ->
  Forall2 (fun i nv => item_sets (base_opts lit eps100 max100) i (fst nv) (snd nv)) items cmd ->
  NoDup (map fst cmd) -> (forall n v, In (n, v) cmd -> exists x, accepts (base_opts lit eps100 max100) read n v x) ->
  opened cmd opts f -> Forall (good_line (base_opts lit eps100 max100)) lines -> fs f = Some (file_text lines) ->
  (~ NoDup (map fst (in_force cmd (file_sets lines))) \/
   exists n v, In (n, v) (in_force cmd (file_sets lines)) /\ forall x, ~ accepts (base_opts lit eps100 max100) read n v x) ->
  parse_options read lit eps100 max100 fs (flat_map item_args items) opts = Throw.
Proof. exact pf_C57_bad_file. Qed.
Print Assumptions C57_bad_file.

Example C57_bad_file_example :
  Forall (good_line ex_table) [Assign "" "bc_y" "" "" "neumann" "" None; Assign "" "bc_y" "" "" "periodic" "" None] /\
  ~ NoDup (map fst (in_force ex_sets (file_sets [Assign "" "bc_y" "" "" "neumann" "" None; Assign "" "bc_y" "" "" "periodic" "" None]))).
Proof. exact (conj ex_bad_lines ex_bad_dup). Qed.

(** C57. The program exits with code 0 if help is asked for, and otherwise with code 1 if the
    configuration file named does not exist. *)
Theorem C57_exit :
  forall V (read : string -> res V) (lit : Z -> Z -> V) (eps100 max100 : V) (fs : string -> option string)
    (items : list item) (cmd : list (string * string)) (f : string) (opts : members V),
  Forall2 (fun i nv => item_sets (base_opts lit eps100 max100) i (fst nv) (snd nv)) items cmd ->
  NoDup (map fst cmd) -> (forall n v, In (n, v) cmd -> exists x, accepts (base_opts lit eps100 max100) read n v x) ->
  opened cmd opts f -> fs f = None ->
  (In "help" (map fst cmd) -> parse_options read lit eps100 max100 fs (flat_map item_args items) opts = Ok (Exited 0)) /\
  (~ In "help" (map fst cmd) -> f <> "" -> parse_options read lit eps100 max100 fs (flat_map item_args items) opts = Ok (Exited 1)).
Proof. exact pf_C57_exit. Qed.
Print Assumptions C57_exit.

Example C57_exit_example :
  Forall2 (fun i nv => item_sets ex_table i (fst nv) (snd nv)) [Help; FileName "nofile"] [("help", ""); ("config_file", "nofile")] /\
  ex_fs "nofile" = None /\
  parse_options ex_read ex_lit "2.22045e-14" "1.79769e+306" ex_fs ["nofile"] ex_fresh = Ok (Exited 1).
Proof. exact (conj ex_help_items (conj eq_refl ex_nofile)). Qed.

(** C57. What the texts mean: any text is a value of a string option, the decimal form of an int of
    an int option, that of an unsigned number of an unsigned option; true, false, yes, no, on, off, 1
    and 0 of a bool option.  A negative number given for an unsigned option (max_time_steps) is not
    rejected: -n becomes 2^32 - n. *)
Theorem C57_values :
  forall V (read : string -> res V) (s : string) (n : Z),
  convert read KString s = Ok (VString s) /\
  (-2147483648 <= n <= 2147483647 -> convert read KInt (dec n) = Ok (VInt n)) /\
  (n < -2147483648 \/ 2147483647 < n -> convert read KInt (dec n) = Throw) /\
  (0 <= n <= 4294967295 -> convert read KUnsigned (dec n) = Ok (VUnsigned n)) /\
  (4294967295 < n -> convert read KUnsigned (dec n) = Throw) /\
  (0 < n <= 4294967295 -> convert read KUnsigned (dec (- n)) = Ok (VUnsigned (4294967296 - n))) /\
  (In s ["true"; "yes"; "on"; "1"] -> convert read KBool s = Ok (VBool true)) /\
  (In s ["false"; "no"; "off"; "0"] -> convert read KBool s = Ok (VBool false)).
Proof. exact pf_C57_values. Qed.
Print Assumptions C57_values.

Example C57_values_example :
  convert ex_read KInt "-128" = Ok (VInt (-128)) /\ convert ex_read KInt "12x" = Throw /\
  convert ex_read KUnsigned "-1" = Ok (VUnsigned 4294967295).
Proof. repeat split; reflexivity. Qed.

(** C64. The configuration template printed for a run that started from a new options object, saved
    as a file and used as the configuration file of another run, sets every option (other than the
    name of the configuration file itself) to its value in the first run, provided the texts among
    the values contain no comment sign, line end or surrounding blanks; a double becomes the number
    read from its printed form, which has six digits. *)
Theorem C64_template :
  forall V (read : string -> res V) (showg : V -> string) (lit : Z -> Z -> V) (eps100 max100 : V)
    (fs fs2 : string -> option string) (args : list string) (f : string) (opts fresh opts1 : members V) (vm1 : vmap V),
  parse_options read lit eps100 max100 fs args opts = Ok (Running opts1 vm1) ->
  (forall o, In o (base_opts lit eps100 max100) -> o_default o = None -> opts (o_name o) = VString "") ->
  (forall n s, In n (map o_name (base_opts lit eps100 max100)) -> opts1 n = VString s -> plain_value s) ->
  (forall n x, In n (map o_name (base_opts lit eps100 max100)) -> opts1 n = VDouble x ->
     plain_value (showg x) /\ exists y, read (showg x) = Ok y) ->
  ~ starts_with "--" f -> fs2 f = Some (config_template showg lit eps100 max100 vm1) ->
  exists opts2 vm2, parse_options read lit eps100 max100 fs2 [f] fresh = Ok (Running opts2 vm2) /\
    forall n, In n (map o_name (base_opts lit eps100 max100)) -> n <> "help" -> n <> "config_file" ->
      match opts1 n with
      | VDouble x => exists y, read (showg x) = Ok y /\ opts2 n = VDouble y
      | other => opts2 n = other
      end.
Proof. exact pf_C64_template. Qed.
Print Assumptions C64_template.

(** The template of the run of the first example. *)
Example C64_template_example :
  match parse_options ex_read ex_lit "2.22045e-14" "1.79769e+306" ex_fs (flat_map item_args ex_items) ex_fresh with
  | Ok (Running o1 vm1) =>
      (forall n s, In n (map o_name ex_table) -> o1 n = VString s -> plain_value s) /\
      match parse_options ex_read ex_lit "2.22045e-14" "1.79769e+306"
              (fun _ => Some (config_template (fun x => x) ex_lit "2.22045e-14" "1.79769e+306" vm1)) ["saved.cfg"] ex_fresh with
      | Ok (Running o2 _) => o2 "dimension" = VInt 3 /\ o2 "bc_x" = VString "neumann" /\ o2 "final_time" = VDouble "2.5"
      | _ => False
      end
  | _ => False
  end.
Proof. exact ex_template. Qed.
