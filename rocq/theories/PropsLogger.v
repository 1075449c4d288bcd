(** The logger and the profiler: C63 and C65-C67.

    [message_record l s] is the record a message of level l makes of the string s.
    [perform_all showe table banner new_logger h] is a run of the calls h on a new logger: [Next g out]
    carries the logger after and what was delivered, [Aborted out] means that a fatal message
    ended the program, [Undefined] undefined behaviour.  [showe] prints a number, [table] a
    header and [banner] is the banner; the theorems hold whatever they are. *)
From Coq Require Import ZArith Reals String Ascii Permutation Sorted List.
From Verif Require Import Outcome Num ModelText ModelLogger SpecLogger LoggerFinal.
Import ListNotations.
Local Open Scope string_scope.
Local Open Scope list_scope.
Local Open Scope Z_scope.

(** C63.  Whatever the message, the lines of what is logged are the lines of the message, each
    after the label of its level; nothing is lost, added or reordered. *)
Theorem C63_prefix :
  forall (l : level) (s : string), In l [LTrace; LDebug; LInfo; LWarning] ->
  exists lines, lines <> [] /\ Forall one_line lines /\ s = join_lines lines /\
    r_text (message_record l s) =
      join_lines (map (append (match l with LTrace => "# [Trace] " | LDebug => "# [Debug] "
                                          | LInfo => "# [Info] " | _ => "# [Warning] " end)) lines).
Proof. exact pf_C63_prefix. Qed.
Print Assumptions C63_prefix.

(** C63, fatal messages: the message stands between two lines of stars, and every line has the
    label. *)
Theorem C63_fatal :
  forall s, exists lines, lines <> [] /\ Forall one_line lines /\ s = join_lines lines /\
    r_text (message_record LFatal s) =
      join_lines (map (append "# [FATAL] ") ([stars; ""] ++ lines ++ [""; stars])).
Proof. exact pf_C63_fatal. Qed.
Print Assumptions C63_fatal.

(** C63 fails for error messages: they carry the label of trace messages, so that nothing in the text
    distinguishes them. *)
Theorem C63_error_label_refuted :
  forall s, r_text (message_record LError s) = r_text (message_record LTrace s).
Proof. exact pf_C63_error_label_refuted. Qed.
Print Assumptions C63_error_label_refuted.

Example C63_prefix_example :
  r_text (message_record LInfo (join_lines ["a"; ""; "b c"])) = join_lines ["# [Info] a"; "# [Info] "; "# [Info] b c"].
Proof. exact ex_prefix. Qed.

(** C65.  After any history of calls that did not end the program, a message is delivered exactly if logging is
    enabled and the level is at least the one in force.  It then goes to the console unless a log was closed before,
    to the file opened last unless that was closed, and to the library's default output only if there is neither. *)
Theorem C65_delivery :
  forall (V : Type) (showe : V -> string) (table : list string -> string) (banner : string) (h : list (call V)) g out l s,
  perform_all showe table banner new_logger h = Next g out ->
  (is_enabled h -> wanted h l ->
    exists d, written (perform showe table banner g (Message l s)) = [d] /\ d_record d = message_record l s /\
      (d_console d = true <-> ~ In Close h) /\
      (forall f, d_file d = Some f <-> log_file h f) /\
      (d_default d = true <-> In Close h /\ forall f, ~ log_file h f)) /\
  (~ is_enabled h \/ ~ wanted h l -> written (perform showe table banner g (Message l s)) = []).
Proof. exact pf_C65_delivery. Qed.
Print Assumptions C65_delivery.

(** C65.  A fatal message ends the program, whatever the state of the logger; no other call does. *)
Theorem C65_fatal :
  forall (V : Type) (showe : V -> string) (table : list string -> string) (banner : string) (g : logger V) c,
  (exists out, perform showe table banner g c = Aborted out) <-> exists s, c = Message LFatal s.
Proof. exact pf_C65_fatal. Qed.
Print Assumptions C65_fatal.

(** C65.  The level asked for with a second log file is not the one in force: whatever happened in between, the
    first one (or the last setLogLevel) stays. *)
Theorem C65_second_file_refuted :
  forall (V : Type) (h : list (call V)) f l f' l', level_in_force (InitFile f l :: h ++ [InitFile f' l']) = level_in_force (InitFile f l :: h).
Proof. exact pf_C65_second_file_refuted. Qed.
Print Assumptions C65_second_file_refuted.

Example C65_delivery_example :
  exists g out, perform_all ex_showe ex_lognames "madgicart" new_logger ex_history = Next g out /\
  is_enabled ex_history /\ wanted ex_history LInfo /\ ~ wanted ex_history LDebug /\ log_file ex_history "b.log" /\
  List.length out = 3%nat.
Proof. exact ex_deliver. Qed.

(** C66.  An update of the log after any history: the row written last holds the printed values of the time,
    residual and solution monitors in this order, provided that the texts have no blanks and those after the first at most
    twelve characters.  At the first update since the log was opened or closed the names are announced, and a header is printed at
    every fiftieth update. *)
Theorem C66_rows :
  forall (V : Type) (showe : V -> string) (table : list string -> string) (banner : string) (h : list (call V)) t r s first rest g out,
  perform_all showe table banner new_logger (h ++ [Monitors t r s]) = Next g out ->
  is_enabled h -> wanted h LWarning ->
  t ++ r ++ s = first :: rest ->
  Forall (fun p => no_blank (fst p)) (first :: rest) -> Forall (fun p => no_blank (showe (snd p))) (first :: rest) ->
  Forall (fun p => (String.length (showe (snd p)) <= 12)%nat) rest ->
  exists g' announce head d,
    perform showe table banner g Update = Next g' (announce ++ head ++ [d]) /\
    row_words (r_text (d_record d)) = map (fun p => showe (snd p)) (t ++ r ++ s) /\
    (updates_since_close h = O -> exists a b, announce = [a; b] /\ row_words (r_text (d_record b)) = map fst (t ++ r ++ s)) /\
    (updates_since_close h <> O -> announce = []) /\
    (Nat.modulo (updates_since_close h) 50 = O -> exists x names, head = [x] /\ r_text (d_record x) = table names /\
       (updates_since_close h = O -> names = map fst (t ++ r ++ s))) /\
    (Nat.modulo (updates_since_close h) 50 <> O -> head = []).
Proof. exact pf_C66_rows. Qed.
Print Assumptions C66_rows.

(** C66 without the bound on the lengths is false: a value printed with thirteen or more characters (such as -1.00000e-100) is not
    separated from the one before it. *)
Theorem C66_long_value_refuted :
  forall (V : Type) (showe : V -> string) (table : list string -> string) (banner : string) (h : list (call V)) a b g out,
  perform_all showe table banner new_logger (h ++ [Monitors [a] [b] []]) = Next g out ->
  is_enabled h -> wanted h LWarning -> no_blank (showe (snd a)) -> no_blank (showe (snd b)) ->
  (13 <= String.length (showe (snd b)))%nat ->
  exists g' before d, perform showe table banner g Update = Next g' (before ++ [d]) /\
    row_words (r_text (d_record d)) = [(showe (snd a) ++ showe (snd b))%string].
Proof. exact pf_C66_long_value_refuted. Qed.
Print Assumptions C66_long_value_refuted.

Example C66_long_value_example :
  exists g out,
  perform_all ex_long (fun _ => "") "madgicart" new_logger ([InitFile "a.log" LInfo] ++ [Monitors [("time", 1)] [("res", -1)] []]) = Next g out /\
  is_enabled [InitFile (V := Z) "a.log" LInfo] /\ wanted [InitFile (V := Z) "a.log" LInfo] LWarning /\ no_blank (ex_long 1) /\ no_blank (ex_long (-1)) /\
  (13 <= String.length (ex_long (-1)))%nat.
Proof. exact ex_long_row. Qed.

(** C66.  An update before any monitor is set is undefined behaviour. *)
Theorem C66_no_monitor_refuted :
  forall (V : Type) (showe : V -> string) (table : list string -> string) (banner : string),
  perform showe table banner (new_logger : logger V) Update = Undefined.
Proof. exact pf_C66_no_monitor_refuted. Qed.
Print Assumptions C66_no_monitor_refuted.

Example C66_rows_example :
  exists g out,
  perform_all ex_showe ex_lognames "madgicart" new_logger (ex_quiet ++ [Monitors ex_time ex_resid ex_solution]) = Next g out /\
  is_enabled ex_quiet /\ wanted ex_quiet LWarning /\
  ex_time ++ ex_resid ++ ex_solution = ("iter", 7) :: [("time", 12)] ++ ex_resid ++ ex_solution /\
  Forall (fun p => no_blank (fst p)) (ex_time ++ ex_resid ++ ex_solution) /\
  Forall (fun p => no_blank (ex_showe (snd p))) (ex_time ++ ex_resid ++ ex_solution) /\
  Forall (fun p => (String.length (ex_showe (snd p)) <= 12)%nat) ([("time", 12)] ++ ex_resid ++ ex_solution).
Proof. exact ex_row. Qed.

(** C67.  After any sequence of tics and tocs the profile has exactly one entry for every function seen, with the number of
    its tics and the sum of the times of its tocs, added in order; in any arithmetic. *)
Theorem C67_counts :
  forall (V : Type) (N : Num V) (h : list (event V)),
  NoDup (map fst (profile_all h)) /\ (forall n, In n (map fst (profile_all h)) <-> In n (map event_name h)) /\
  forall n c t, In (n, (c, t)) (profile_all h) ->
    c = Z.of_nat (calls_of n h) /\ t = fold_left nadd (times_of n h) (nint 0).
Proof. exact pf_C67_counts. Qed.
Print Assumptions C67_counts.

(** C67.  The report has one row for every entry, in descending order of percentages.  If some function took time, then a row's
    percentage is its time relative to the largest, lies between 0 and 100, and the first row has 100. *)
Theorem C67_report :
  forall (order : list (profile R) -> list (profile R)) (sort : (report R -> report R -> bool) -> list (report R) -> list (report R)) l,
  (forall x, Permutation x (order x)) -> is_sort sort -> (forall n c t, In (n, (c, t)) l -> (0 <= t)%R) ->
  let rows := report_rows order sort l in
  Permutation l (map (fun r => (p_name r, (p_calls r, p_time r))) rows) /\
  StronglySorted (fun a b => (p_percent b <= p_percent a)%R) rows /\
  ((exists n c t, In (n, (c, t)) l /\ (0 < t)%R) ->
    exists top, (0 < top)%R /\ (forall r, In r rows -> p_percent r = (p_time r / top * 100)%R /\ (0 <= p_percent r <= 100)%R) /\
      exists first rest, rows = first :: rest /\ p_percent first = 100%R /\ p_time first = top).
Proof. exact pf_C67_report. Qed.
Print Assumptions C67_report.

Example C67_counts_example :
  calls_of "rhs" ex_events = 2%nat /\ times_of "rhs" ex_events = [5; 4] /\ calls_of "norm" ex_events = 1%nat.
Proof. exact ex_counts. Qed.

Example C67_report_example :
  (forall x : list (profile R), Permutation x x) /\ is_sort (isort (A := report R)) /\
  (forall n c t, In (n, (c, t)) [("rhs", (2%Z, 3%R)); ("norm", (1%Z, 0%R))] -> (0 <= t)%R).
Proof. exact (conj (@Permutation_refl _) (conj isort_ok ex_times)). Qed.
