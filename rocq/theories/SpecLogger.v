(** Specification vocabulary for the logger and the profiler. *)
From Coq Require Import ZArith String Ascii Permutation Sorted List.
Import ListNotations.
From Verif Require Import Outcome Num ModelText ModelLogger.

(** Lines separated by line ends; a line has no line end in it. *)
Fixpoint join_lines (l : list string) : string :=
  match l with
  | [] => ""%string
  | [s] => s
  | s :: l' => (s ++ nl ++ join_lines l')%string
  end.
Definition one_line (s : string) : Prop := forall n, String.get n s <> Some "010"%char.

Section Histories.
  Context {V : Type}.
  Implicit Types h : list (call V).

  (** The level asked for: that of the last setLogLevel, if there is one; otherwise that of
      the first initLogFile, if there is one. *)
  Fixpoint last_set_level h : option level :=
    match h with
    | [] => None
    | SetLevel l :: h' => match last_set_level h' with Some l' => Some l' | None => Some l end
    | _ :: h' => last_set_level h'
    end.
  Fixpoint first_file_level h : option level :=
    match h with [] => None | InitFile _ l :: _ => Some l | _ :: h' => first_file_level h' end.
  Definition level_in_force h : option level :=
    match last_set_level h with Some l => Some l | None => first_file_level h end.
  Definition wanted h (l : level) : Prop :=
    match level_in_force h with Some t => (rank t <= rank l)%Z | None => True end.

  (** Logging is enabled unless the last of the calls disable and enable is disable. *)
  Definition is_enabled h : Prop := forall h1 h2, h = h1 ++ Disable :: h2 -> In Enable h2.
  (** f is the log file: the last one opened, unless closed since. *)
  Definition log_file h (f : string) : Prop :=
    exists h1 h2 l, h = h1 ++ InitFile f l :: h2 /\ ~ In Close h2 /\ (forall g k, ~ In (InitFile g k) h2).

  (** The number of updates since the log was last closed. *)
  Definition updates_since_close h : nat :=
    fold_left (fun n c => match c with Close => O | Update => S n | _ => n end) h O.

  (** What a call wrote. *)
  Definition written (e : effect V) : list delivery :=
    match e with Next _ out => out | Aborted out => out | Undefined => [] end.
End Histories.

(** The words of a row: what a reader splitting it at blanks sees. *)
Definition row_words (s : string) : list string := split_compress (any_of " ") (trim_if (any_of " ") s).
Definition no_blank (s : string) : Prop := s <> ""%string /\ forall n, String.get n s <> Some " "%char.

(** The calls and times recorded for one function. *)
Definition calls_of {V} (n : string) (h : list (event V)) : nat :=
  length (filter (fun e => match e with Tic k => String.eqb k n | Toc _ _ => false end) h).
Definition times_of {V} (n : string) (h : list (event V)) : list V :=
  flat_map (fun e => match e with Toc k x => if String.eqb k n then [x] else [] | Tic _ => [] end) h.
Definition event_name {V} (e : event V) : string := match e with Tic n => n | Toc n _ => n end.

(** What std::sort guarantees for a comparison that is a strict weak order on the elements. *)
Definition strict_weak {A} (lt : A -> A -> bool) : Prop :=
  (forall a, lt a a = false) /\
  (forall a b c, lt a b = true -> lt b c = true -> lt a c = true) /\
  (forall a b c, lt a b = false -> lt b c = false -> lt a c = false).
Definition is_sort {A} (sort : (A -> A -> bool) -> list A -> list A) : Prop :=
  forall lt l, strict_weak lt -> Permutation l (sort lt l) /\ StronglySorted (fun a b => lt b a = false) (sort lt l).
