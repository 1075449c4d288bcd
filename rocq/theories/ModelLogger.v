(** The logger and the profiler (/repo/logger/logger.cpp, logger.hpp, profiler.cpp,
    profiler.hpp).

    boost::log is modelled as far as the program uses it: a record has a severity and a text;
    it is dropped if logging is disabled or its severity is below the filter; otherwise it
    goes to the console sink and the file sink, as far as they are registered, and to the
    library's default sink if no sink is registered.  The Timer class (338-359), time stamps, file rotation and
    flushing are left out.  The update counter is an int in the code; its overflow after
    2^31 rows is left out. *)
From Coq Require Import ZArith List String Ascii Bool.
Import ListNotations.
From Verif Require Import Outcome Num ModelText.
Local Open Scope string_scope.
Local Open Scope list_scope.
Local Open Scope Z_scope.

(** logger.hpp:18 *)
Inductive level : Type := LTrace | LDebug | LInfo | LWarning | LError | LFatal.
(** The order of boost::log::trivial::severity_level. *)
Definition rank (l : level) : Z :=
  match l with LTrace => 0 | LDebug => 1 | LInfo => 2 | LWarning => 3 | LError => 4 | LFatal => 5 end.

(** boost::replace_all(str, "\n", "\n" + tag) *)
Fixpoint after_newlines (tag s : string) : string :=
  match s with
  | EmptyString => ""%string
  | String c s' => if Ascii.eqb c "010" then (String c tag ++ after_newlines tag s')%string else String c (after_newlines tag s')
  end.

(** What is written in front of every line (logger.cpp:251-294); ErrorMessage uses the tag
    of TraceMessage. *)
Definition tag (l : level) : string :=
  match l with
  | LTrace => "# [Trace] " | LDebug => "# [Debug] " | LInfo => "# [Info] "
  | LWarning => "# [Warning] " | LError => "# [Trace] " | LFatal => "# [FATAL] "
  end.

(** A record given to boost::log. *)
Record record : Type := { r_level : level; r_text : string }.

(** TraceMessage, DebugMessage, InfoMessage, WarningMessage, ErrorMessage, FatalMessage
    (245-294), without the abort of the last. *)
Definition stars : string := "**************************************".
Definition message_record (l : level) (s : string) : record :=
  let s := match l with LFatal => (stars ++ nl ++ nl ++ s ++ nl ++ nl ++ stars)%string | _ => s end in
  {| r_level := l; r_text := (tag l ++ after_newlines (tag l) s)%string |}.
(** The line FatalMessage writes to standard output (250). *)
Definition fatal_stdout (s : string) : string := ("# [FATAL] " ++ s ++ nl)%string.

(** A record that reached the outside: whether it went to the console, to which log file,
    and whether to the default sink. *)
Record delivery : Type := { d_record : record; d_console : bool; d_file : option string; d_default : bool }.

Section Logger.
  Context {V : Type}.
  (** operator<< with std::scientific and precision 5; tabulate's rendering of a header row;
      the banner. *)
  Variables (showe : V -> string) (table : list string -> string) (banner : string).

  (** The members of Logger and the state of the boost::log core. *)
  Record logger : Type := {
    l_filter : option level; l_enabled : bool; l_overridden : bool;
    l_console : bool; l_file : option string; l_updates : Z; l_header : list string;
    l_time : list (string * V); l_residual : list (string * V); l_solution : list (string * V) }.
  (** The constructor (34-60). *)
  Definition new_logger : logger := {|
    l_filter := None; l_enabled := true; l_overridden := false; l_console := true; l_file := None;
    l_updates := 0; l_header := []; l_time := []; l_residual := []; l_solution := [] |}.

  (** What boost::log does with a record. *)
  Definition deliver (g : logger) (r : record) : list delivery :=
    if l_enabled g && match l_filter g with Some l => rank l <=? rank (r_level r) | None => true end
    then [{| d_record := r; d_console := l_console g; d_file := l_file g;
             d_default := negb (l_console g) && match l_file g with None => true | Some _ => false end |}]
    else [].

  (** setLogLevel (63-86) *)
  Definition set_level (g : logger) (l : level) : logger := {|
    l_filter := Some l; l_enabled := l_enabled g; l_overridden := true; l_console := l_console g; l_file := l_file g;
    l_updates := l_updates g; l_header := l_header g; l_time := l_time g; l_residual := l_residual g; l_solution := l_solution g |}.
  (** disable, enable (88-98) *)
  Definition set_enabled (g : logger) (b : bool) : logger := {|
    l_filter := l_filter g; l_enabled := b; l_overridden := l_overridden g; l_console := l_console g; l_file := l_file g;
    l_updates := l_updates g; l_header := l_header g; l_time := l_time g; l_residual := l_residual g; l_solution := l_solution g |}.
  (** The replacement of the file sink in initLogFile (103-120). *)
  Definition open_file (g : logger) (f : string) : logger := {|
    l_filter := l_filter g; l_enabled := l_enabled g; l_overridden := l_overridden g; l_console := l_console g; l_file := Some f;
    l_updates := l_updates g; l_header := l_header g; l_time := l_time g; l_residual := l_residual g; l_solution := l_solution g |}.
  (** closeLogFile (298-315) *)
  Definition close (g : logger) : logger := {|
    l_filter := l_filter g; l_enabled := l_enabled g; l_overridden := l_overridden g; l_console := false; l_file := None;
    l_updates := 0; l_header := l_header g; l_time := l_time g; l_residual := l_residual g; l_solution := l_solution g |}.
  (** setTimeMonitor, setResidualMonitor, setSolutionMonitor (318-334) *)
  Definition set_monitors (g : logger) (t r s : list (string * V)) : logger := {|
    l_filter := l_filter g; l_enabled := l_enabled g; l_overridden := l_overridden g; l_console := l_console g; l_file := l_file g;
    l_updates := l_updates g; l_header := l_header g; l_time := t; l_residual := r; l_solution := s |}.
  (** The counter and the header table after updateLog (156-180, 200). *)
  Definition counted (g : logger) (header : list string) : logger := {|
    l_filter := l_filter g; l_enabled := l_enabled g; l_overridden := l_overridden g; l_console := l_console g; l_file := l_file g;
    l_updates := l_updates g + 1; l_header := header; l_time := l_time g; l_residual := l_residual g; l_solution := l_solution g |}.

  (** std::setw(13): pad on the left. *)
  Definition column (s : string) : string := repeat_char " " (13 - String.length s) s.
  (** The row of numbers (182-194). *)
  Definition row (g : logger) : string :=
    (" " ++ fold_right append "" (map (fun p => column (showe (snd p))) (l_time g ++ l_residual g ++ l_solution g)))%string.
  Definition warning (s : string) : record := {| r_level := LWarning; r_text := s |}.

  (** updateLog (128-201).  At the first call the header is built; without any monitor this
      reads the first cell of an empty row. *)
  Definition update_log (g : logger) : res (logger * list delivery) :=
    let names := map fst (l_time g ++ l_residual g ++ l_solution g) in
    let out := deliver g in
    let first := l_updates g =? 0 in
    if first && match names with [] => true | _ => false end then UB else
    let header := if first then names else l_header g in
    let announce := if first then out (warning ("#" ++ nl ++ "# Logger outputs: ")%string) ++
                                   out (warning (fold_right append "" (map (fun n => n ++ " ") names))%string)
                    else [] in
    let head := if Z.rem (l_updates g) 50 =? 0 then out (warning (table header)) else [] in
    Ok (counted g header, announce ++ head ++ out (warning (row g))).

  (** The calls of the public interface. *)
  Inductive call : Type :=
  | SetLevel (l : level) | Enable | Disable | InitFile (f : string) (l : level) | Close
  | Monitors (t r s : list (string * V)) | Update | Message (l : level) (s : string).

  (** One call: the logger afterwards and what was delivered.  FatalMessage ends the program
      after delivering. *)
  Inductive effect : Type := Next (g : logger) (out : list delivery) | Aborted (out : list delivery) | Undefined.
  Definition perform (g : logger) (c : call) : effect :=
    match c with
    | SetLevel l => Next (set_level g l) []
    | Enable => Next (set_enabled g true) []
    | Disable => Next (set_enabled g false) []
    | InitFile f l =>
        let g := open_file g f in
        let g := if l_overridden g then g else set_level g l in
        Next g (deliver g {| r_level := LInfo; r_text := banner |})
    | Close => Next (close g) []
    | Monitors t r s => Next (set_monitors g t r s) []
    | Update => match update_log g with Ok (g', out) => Next g' out | _ => Undefined end
    | Message l s =>
        let out := deliver g (message_record l s) in
        match l with LFatal => Aborted out | _ => Next g out end
    end.

  (** A history of calls; [out] is everything delivered. *)
  Fixpoint perform_all (g : logger) (h : list call) : effect :=
    match h with
    | [] => Next g []
    | c :: h' =>
        match perform g c with
        | Next g' out => match perform_all g' h' with
                         | Next g'' out' => Next g'' (out ++ out')
                         | Aborted out' => Aborted (out ++ out')
                         | Undefined => Undefined
                         end
        | e => e
        end
    end.
End Logger.
Arguments logger V : clear implicits.
Arguments call V : clear implicits.
Arguments effect V : clear implicits.

Section Profiler.
  Context {V : Type} `{Num V}.

  (** The map from function names to call counts and times (profiler.hpp:62-67), as a list of
      its entries in the order of first use; std::unordered_map has an order of its own,
      which [finalize] takes as a parameter. *)
  Definition profile : Type := string * (Z * V).
  Fixpoint upd (l : list profile) (n : string) (f : Z * V -> Z * V) : list profile :=
    match l with
    | [] => [(n, f (0, nint 0))]
    | (k, x) :: l' => if String.eqb k n then (k, f x) :: l' else (k, x) :: upd l' n f
    end.
  (** tic, toc (profiler.cpp:75-83) *)
  Inductive event : Type := Tic (n : string) | Toc (n : string) (elapsed : V).
  Definition profile_event (l : list profile) (e : event) : list profile :=
    match e with
    | Tic n => upd l n (fun '(c, t) => (c + 1, t))
    | Toc n x => upd l n (fun '(c, t) => (c, nadd t x))
    end.
  Definition profile_all (h : list event) : list profile := fold_left profile_event h [].

  (** A row of the report (16-21). *)
  Record report : Type := { p_name : string; p_calls : Z; p_time : V; p_percent : V }.
  (** finalize (12-72) up to the formatting: [order] lists the entries in the map's order,
      [sort] is std::sort with the comparison at line 37. *)
  Definition report_rows (order : list profile -> list profile)
      (sort : (report -> report -> bool) -> list report -> list report) (l : list profile) : list report :=
    let l := order l in
    let top := fold_left (fun m p => nmax m (snd (snd p))) l (nint 0) in
    sort (fun a b => nltb (p_percent b) (p_percent a))
      (map (fun p => {| p_name := fst p; p_calls := fst (snd p); p_time := snd (snd p);
                        p_percent := nmul (ndiv (snd (snd p)) top) (nint 100) |}) l).
End Profiler.
Arguments profile V : clear implicits.
Arguments event V : clear implicits.
Arguments report V : clear implicits.
