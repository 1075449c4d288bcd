(** Specification vocabulary for reading a log file as a table of numbers, the way plot_history.py:51 does:
    text from a number sign to the end of its line is a comment, lines with nothing but blanks are
    skipped, and the others are split at blanks. *)
From Coq Require Import ZArith String Ascii List.
Import ListNotations.
From Verif Require Import Outcome Num ModelText ModelLogger ModelBanner SpecLogger.

(** The lines of a text. *)
Fixpoint text_lines (s : string) : list string :=
  match s with
  | EmptyString => [""%string]
  | String c s' =>
      if Ascii.eqb c "010" then ""%string :: text_lines s'
      else match text_lines s' with l :: ls => String c l :: ls | [] => [] end
  end.
(** A line without its comment. *)
Fixpoint uncommented (s : string) : string :=
  match s with
  | EmptyString => ""%string
  | String c s' => if Ascii.eqb c "#" then ""%string else String c (uncommented s')
  end.
Fixpoint only_blanks (s : string) : bool :=
  match s with EmptyString => true | String c s' => Ascii.eqb c " " && only_blanks s' end.
(** The table in a text: the words of each line that has any. *)
Definition table_in (text : string) : list (list string) :=
  map row_words (filter (fun l => negb (only_blanks l)) (map uncommented (text_lines text))).

(** Every line of a text is a comment. *)
Definition all_comment (s : string) : Prop := Forall (fun l => exists rest, l = String "#" rest) (text_lines s).
(** A word: not empty, without blanks, number signs and line ends. *)
Definition is_word (s : string) : Prop :=
  no_blank s /\ one_line s /\ forall n, String.get n s <> Some "#"%char.

(** The text of the file f after the deliveries given, the n-th of them at the time stamp n: the file's format is
    the message followed by the time stamp in a comment (logger.cpp:115-120). *)
Fixpoint file_text (f : string) (stamp : nat -> string) (n : nat) (out : list delivery) : string :=
  match out with
  | [] => ""%string
  | d :: out' =>
      (match d_file d with
       | Some g => if String.eqb g f then r_text (d_record d) ++ " #[" ++ stamp n ++ "]" ++ nl else ""
       | None => ""
       end ++ file_text f stamp (S n) out')%string
  end.

(** What is written to a log once it is open: messages and rows, in any order. *)
Inductive entry (V : Type) : Type :=
| Says (l : level) (s : string)
| Row (t r s : list (string * V)).
Arguments Says {V}. Arguments Row {V}.
Definition entry_calls {V} (e : entry V) : list (call V) :=
  match e with Says l s => [Message l s] | Row t r s => [Monitors t r s; Update] end.
(** The rows among the entries, each with the names and values of its columns. *)
Definition rows_of {V} (es : list (entry V)) : list (list (string * V)) :=
  flat_map (fun e => match e with Says _ _ => [] | Row t r s => [t ++ r ++ s] end) es.

(** A row whose values are printed as words of which only the first may fill its column. *)
Definition readable {V} (showe : V -> string) (row : list (string * V)) : Prop :=
  Forall is_word (map (fun p => showe (snd p)) row) /\
  Forall (fun p => (String.length (showe (snd p)) <= 12)%nat) (tl row).
(** The printed values of a row. *)
Definition printed {V} (showe : V -> string) (row : list (string * V)) : list string := map (fun p => showe (snd p)) row.
(** A readable row with the columns [names]. *)
Definition legible {V} (showe : V -> string) (names : list string) (row : list (string * V)) : Prop :=
  map fst row = names /\ readable showe row.

(** The columns of a row given as three groups. *)
Definition columns_of {V} (row : list (string * V) * list (string * V) * list (string * V)) : list (string * V) :=
  let '(status, residuals, monitors) := row in status ++ residuals ++ monitors.
(** The columns of a Cahn-Hilliard run's log; [names] are those the integrator adds. *)
Definition run_columns (names : list string) : list string :=
  ["iter"; "time"; "dt"]%string ++ names ++ ["res_c"; "abs_res"; "rel_res"; "min_c"; "max_c"; "grad_c_mag"]%string.

(** What a banner shows, besides the working directory and what cannot have line ends, has no line ends. *)
Definition plain_surroundings (e : surroundings) : Prop :=
  one_line (username (e_user e)) /\ one_line (device_model (e_gpu e)) /\
  Forall one_line [e_host e; e_clock e; e_branch e; e_hash e; e_compiler e].
