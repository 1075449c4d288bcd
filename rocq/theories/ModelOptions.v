(** Program options (/repo/program_options/program_options_parser.cpp, program_options.hpp).

    boost::program_options is modelled as far as the program uses it: the command line parser
    in the style given at line 237 (long options only, value after '=' or in the next
    argument, unambiguous prefixes accepted, other arguments positional), the configuration
    file parser, [store] and [notify].  Exceptions of the library are [Throw].
    The text of a double is read and printed by parameters. *)
From Coq Require Import ZArith List String Ascii Bool.
Import ListNotations.
From Verif Require Import Outcome ModelText.
Local Open Scope string_scope.
Local Open Scope list_scope.
Local Open Scope Z_scope.

(** The types of the options; [KFlag] is help, which takes no value. *)
Inductive kind : Type := KString | KDouble | KInt | KUnsigned | KBool | KFlag.

(** A value stored for an option (a boost::any). *)
Inductive value (V : Type) : Type :=
  VString (s : string) | VDouble (v : V) | VInt (n : Z) | VUnsigned (n : Z) | VBool (b : bool).
Arguments VString {V} s. Arguments VDouble {V} v. Arguments VInt {V} n. Arguments VUnsigned {V} n. Arguments VBool {V} b.

(** The text before and after the first occurrence of a character. *)
Fixpoint cut (c : ascii) (s : string) : option (string * string) :=
  match s with
  | EmptyString => None
  | String d s' => if Ascii.eqb d c then Some (""%string, s')
                   else match cut c s' with Some (a, b) => Some (String d a, b) | None => None end
  end.

(** [boost::lexical_cast<unsigned>(string)]: a minus sign is accepted and wraps around. *)
Definition lexical_unsigned (s : string) : res Z :=
  let '(neg, r) := match s with
           | String "-" s' => (true, unsigned_value s')
           | String "+" s' => (false, unsigned_value s')
           | _ => (false, unsigned_value s)
           end in
  match r with
  | Some v => if v <=? 4294967295 then Ok (if neg then (- v) mod 4294967296 else v) else Throw
  | None => Throw
  end.

Definition lower (c : ascii) : ascii :=
  let n := N_of_ascii c in if ((65 <=? n) && (n <=? 90))%N then ascii_of_N (n + 32) else c.
Fixpoint lower_case (s : string) : string :=
  match s with EmptyString => ""%string | String c s' => String (lower c) (lower_case s') end.

(** The library's validator for bool. *)
Definition bool_text (s : string) : res bool :=
  let t := lower_case s in
  if existsb (String.eqb t) [""; "on"; "yes"; "1"; "true"]%string then Ok true
  else if existsb (String.eqb t) ["off"; "no"; "0"; "false"]%string then Ok false
  else Throw.

Section Options.
  Context {V : Type}.
  (** lexical_cast<double>; operator<<(double) with precision 6; the double nearest to m 10^e;
      100 DBL_EPSILON and DBL_MAX/100. *)
  Variables (read : string -> res V) (showg : V -> string) (lit : Z -> Z -> V) (eps100 max100 : V).
  Local Open Scope res_scope.

  Record opt : Type := { o_name : string; o_kind : kind; o_default : option (value V) }.
  Definition str (n : string) (d : option string) : opt := {| o_name := n; o_kind := KString; o_default := option_map VString d |}.
  Definition dbl (n : string) (v : V) : opt := {| o_name := n; o_kind := KDouble; o_default := Some (VDouble v) |}.
  Definition int (n : string) (v : Z) : opt := {| o_name := n; o_kind := KInt; o_default := Some (VInt v) |}.
  Definition bln (n : string) (v : bool) : opt := {| o_name := n; o_kind := KBool; o_default := Some (VBool v) |}.
  Definition uns (n : string) (v : Z) : opt := {| o_name := n; o_kind := KUnsigned; o_default := Some (VUnsigned v) |}.

  (** The option groups of the constructor (85-217). *)
  Definition file_opts : list opt := [
    str "config_file" None; str "solution_output_file" None; str "initial_condition_file" (Some "none"%string);
    str "log_file" (Some "maDGiCart"%string); int "log_frequency" 20; int "save_every" 0].
  Definition physics_opts : list opt := [
    str "equation_type" (Some "cahn-hilliard"%string); dbl "m" (lit 0 0);
    dbl "eps2" (lit 2419753086419753 (-20)); dbl "sigma" (lit 2914488109293305 (-13)); int "kernel_variant" 1].
  Definition discretization_opts : list opt := [
    dbl "domain_x_begin" (lit 0 0); dbl "domain_y_begin" (lit 0 0); dbl "domain_z_begin" (lit 0 0);
    dbl "domain_x_end" (lit 1 0); int "domain_resolution_x" 128; int "domain_resolution_y" 128;
    int "domain_resolution_z" 128; int "dimension" 2; str "bc_x" (Some "periodic"%string);
    str "bc_y" (Some "periodic"%string); str "bc_z" (Some "periodic"%string)].
  Definition time_stepping_opts : list opt := [
    str "time_integrator" (Some "rk3ssp"%string); dbl "time_step_size" (lit 1 (-6)); dbl "initial_time" (lit 0 0);
    dbl "final_time" (lit 1 0); uns "max_time_steps" 10000; bln "use_cfl_time_step" false; dbl "cfl" (lit 1 0);
    bln "use_adaptive_time_step" false; dbl "min_time_step_size" eps100; dbl "max_time_step_size" max100;
    dbl "time_rel_err_tol" (lit 1 (-2)); dbl "converged_rel_tol" (lit 0 0); dbl "converged_abs_tol" (lit 0 0);
    str "petsc_options" None].
  Definition multigrid_opts : list opt := [
    int "mg_max_cycles" 100; dbl "mg_rel_tol" (lit 1 (-2)); int "mg_verbosity" 2; dbl "mg_relaxation" (lit 1 0);
    dbl "mg_coarse_relaxation" (lit 1 0); int "mg_nsmooth" 1; dbl "mg_cfl" (lit 1 0); int "mg_levels" 1;
    str "mg_interpolation" (Some "nearest"%string)].
  (** All options (87, 224-228). *)
  Definition base_opts : list opt :=
    {| o_name := "help"; o_kind := KFlag; o_default := None |} ::
    file_opts ++ discretization_opts ++ physics_opts ++ time_stepping_opts ++ multigrid_opts.

  (** options_description::find_nothrow: exactly, or (command line only) by a prefix that
      fits a single option. *)
  Definition find_exact (n : string) : option opt := find (fun o => String.eqb (o_name o) n) base_opts.
  Definition find_guess (n : string) : res opt :=
    match find_exact n with
    | Some o => Ok o
    | None => match filter (fun o => String.prefix n (o_name o)) base_opts with [o] => Ok o | _ => Throw end
    end.

  (** One argument as a long option: name and value after '='.  An empty value after '='
      throws (cmdline::parse_long_option). *)
  Definition is_long (tok : string) : bool := String.prefix "--" tok && negb (String.eqb tok "--").
  Definition parse_long (tok : string) : res (string * option string) :=
    match tok with
    | String _ (String _ body) =>
        match cut "=" body with
        | Some (name, v) => match v with EmptyString => Throw | _ => Ok (name, Some v) end
        | None => Ok (body, None)
        end
    | _ => UB
    end.

  (** command_line_parser(...).run() (235-239): the assignments in the order given.  An
      argument that is not a long option names the configuration file, as do all arguments
      after "--"; so does the value of an option with an empty name. *)
  Fixpoint parse_command_line (args : list string) : res (list (string * string)) :=
    match args with
    | [] => Ok []
    | tok :: rest =>
        if is_long tok then
          '(name, adj) <- parse_long tok ;;
          if String.eqb name "" then
            r <- parse_command_line rest ;;
            Ok (("config_file"%string, match adj with Some v => v | None => ""%string end) :: r)
          else
            o <- find_guess name ;;
            match o_kind o, adj with
            | KFlag, Some _ => Throw
            | KFlag, None => r <- parse_command_line rest ;; Ok ((o_name o, ""%string) :: r)
            | _, Some v => r <- parse_command_line rest ;; Ok ((o_name o, v) :: r)
            | _, None =>
                match rest with
                | [] => Throw
                | v :: rest' =>
                    (* the library tries to read the value as an option first *)
                    _ <- (if is_long v then parse_long v else Ok (""%string, None)) ;;
                    r <- parse_command_line rest' ;;
                    Ok ((o_name o, v) :: r)
                end
            end
        else if String.eqb tok "--" then Ok (map (fun v => ("config_file"%string, v)) rest)
        else r <- parse_command_line rest ;; Ok (("config_file"%string, tok) :: r)
    end.

  (** trim_ws of the configuration file parser. *)
  Definition ws (c : ascii) : bool := any_of (String " " (String tab (String "013" nl))) c.
  Definition trim_ws (s : string) : string := trim_if ws s.
  Definition last_char (s : string) : option ascii := String.get (String.length s - 1) s.

  (** parse_config_file (244): comments, sections and "name = value" lines; names must be
      registered in full. *)
  Fixpoint parse_config_lines (prefix : string) (lines : list string) : res (list (string * string)) :=
    match lines with
    | [] => Ok []
    | line :: rest =>
        let s := trim_ws (match cut "#" line with Some (a, _) => a | None => line end) in
        match s with
        | EmptyString => parse_config_lines prefix rest
        | String c s' =>
            if Ascii.eqb c "[" && match last_char s with Some d => Ascii.eqb d "]" | None => false end then
              let p := String.substring 0 (String.length s - 2) s' in
              match last_char p with
              | None => UB
              | Some d => parse_config_lines (if Ascii.eqb d "." then p else p ++ ".")%string rest
              end
            else
              match cut "=" s with
              | None => Throw
              | Some (a, b) =>
                  let name := (prefix ++ trim_ws a)%string in
                  match find_exact name with
                  | None => Throw
                  | Some _ => r <- parse_config_lines prefix rest ;; Ok ((name, trim_ws b) :: r)
                  end
              end
        end
    end.
  (** std::getline: the pieces between newlines; no line after a final newline. *)
  Fixpoint lines_from (cur : string) (s : string) : list string :=
    match s with
    | EmptyString => match cur with EmptyString => [] | _ => [cur] end
    | String c s' => if Ascii.eqb c "010" then cur :: lines_from "" s' else lines_from (cur ++ String c "") s'
    end.
  Definition parse_config (text : string) : res (list (string * string)) := parse_config_lines "" (lines_from "" text).

  (** The validators. *)
  Definition convert (k : kind) (s : string) : res (value V) :=
    match k with
    | KString | KFlag => Ok (VString s)
    | KDouble => v <- read s ;; Ok (VDouble v)
    | KInt => n <- lexical_int s ;; Ok (VInt n)
    | KUnsigned => n <- lexical_unsigned s ;; Ok (VUnsigned n)
    | KBool => b <- bool_text s ;; Ok (VBool b)
    end.

  (** variables_map: the value of each option present and whether it is a default; the names
      that later calls of [store] leave alone. *)
  Definition vmap : Type := string -> option (value V * bool).
  Definition vset (m : vmap) (n : string) (x : value V * bool) : vmap :=
    fun k => if String.eqb k n then Some x else m k.

  (** po::store: assignments in order, a second one to the same option throws; options
      given in an earlier store are skipped; then the defaults. *)
  Definition store_one (final : string -> bool) (st : vmap * (string -> bool)) (a : string * string)
    : res (vmap * (string -> bool)) :=
    let '(m, new) := st in
    let '(n, text) := a in
    if final n then Ok (m, new)
    else match find_exact n with
    | None => Throw
    | Some o =>
        match m n with
        | Some (_, false) => Throw
        | _ => v <- convert (o_kind o) text ;;
               Ok (vset m n (v, false), fun k => String.eqb k n || new k)
        end
    end.
  Definition add_default (m : vmap) (o : opt) : vmap :=
    match m (o_name o), o_default o with
    | None, Some v => vset m (o_name o) (v, true)
    | _, _ => m
    end.
  Definition store (final : string -> bool) (m : vmap) (l : list (string * string)) : res (vmap * (string -> bool)) :=
    '(m, new) <- foldM (store_one final) l (m, fun _ => false) ;;
    Ok (fold_left add_default base_opts m, fun k => new k || final k).

  (** The members of the Options singleton, by option name. *)
  Definition members : Type := string -> value V.
  (** po::notify writes every value present to its member; help has none. *)
  Definition notify (m : vmap) (opts : members) : members :=
    fun n => match find_exact n with
             | Some o => match o_kind o, m n with KFlag, _ | _, None => opts n | _, Some (v, _) => v end
             | None => opts n
             end.

  (** How parseInputOptions (220-262) ends: it returns, or the program exits with a code. *)
  Inductive parsed : Type := Running (opts : members) (vm : vmap) | Exited (code : Z).

  (** [fs name] is the content of the file with that name, if there is one. *)
  Definition parse_options (fs : string -> option string) (args : list string) (opts : members) : res parsed :=
    cmd <- parse_command_line args ;;
    '(m, final) <- store (fun _ => false) (fun _ => None) cmd ;;
    let opts := notify m opts in
    file <- match opts "config_file"%string with VString f => Ok f | _ => UB end ;;
    cfg <- parse_config (match fs file with Some text => text | None => ""%string end) ;;
    '(m, _) <- store final m cfg ;;
    let opts := notify m opts in
    file <- match opts "config_file"%string with VString f => Ok f | _ => UB end ;;
    match m "help"%string with
    | Some _ => Ok (Exited 0)
    | None =>
        if String.eqb file "" then Ok (Running opts m)
        else match fs file with
             | Some _ => Ok (Running opts m)
             | None => Ok (Exited 1)
             end
    end.

  (** operator<<(ostream, boost::any) (265-320), with boolalpha: nothing for an absent
      value. *)
  Definition show_value (v : option (value V * bool)) : string :=
    match v with
    | None => ""%string
    | Some (VString s, _) => s
    | Some (VDouble x, _) => showg x
    | Some (VInt n, _) => dec n
    | Some (VBool b, _) => if b then "true"%string else "false"%string
    | Some (VUnsigned n, _) => dec n
    end.

  (** One line of the configuration template: the name padded to 30 columns (339). *)
  Definition template_line (m : vmap) (o : opt) : string :=
    (repeat_char " " (30 - String.length (o_name o)) (o_name o) ++ " = " ++ show_value (m (o_name o)) ++ nl)%string.
  Definition template_group (m : vmap) (title : string) (l : list opt) : string :=
    (nl ++ "# ****** " ++ title ++ " Options ****** #" ++ nl ++ nl ++
     fold_right append "" (map (template_line m) l))%string.
  (** getConfigurationFileTemplate (329-368) *)
  Definition config_template (m : vmap) : string :=
    (template_group m "File" file_opts ++ template_group m "Physics" physics_opts ++
     template_group m "Discretization" discretization_opts ++ template_group m "Multigrid" multigrid_opts ++
     template_group m "Time Stepping" time_stepping_opts ++ nl)%string.
End Options.
Arguments opt V : clear implicits.
Arguments parsed V : clear implicits.
Arguments vmap V : clear implicits.
Arguments members V : clear implicits.
