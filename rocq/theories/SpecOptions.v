(** Specification vocabulary for program options: how a user writes a command line and a
    configuration file, and what these mean. *)
From Coq Require Import ZArith String Ascii List.
Import ListNotations.
From Verif Require Import Outcome ModelText ModelOptions.

(** The character c does not occur in s; s consists of blanks, tabs and carriage returns. *)
Definition free_of (c : ascii) (s : string) : Prop := forall n, String.get n s <> Some c.
Definition blank (c : ascii) : Prop := c = " "%char \/ c = "009"%char \/ c = "013"%char.
Definition blanks (s : string) : Prop := forall n c, String.get n s = Some c -> blank c.
Definition starts_with (p s : string) : Prop := exists t, s = (p ++ t)%string.

(** A value that can stand in a configuration file: no comment sign or line end inside, and
    no blank at either end. *)
Definition plain_value (v : string) : Prop :=
  free_of "#" v /\ free_of "010" v /\
  (forall c t, v = String c t -> ~ blank c) /\
  (forall c t, v = (t ++ String c "")%string -> ~ blank c).

(** Command line items: "--name=value", "--name value", a file name, or "--help". *)
Inductive item : Type := Joined (n v : string) | Apart (n v : string) | FileName (f : string) | Help.
Definition item_args (i : item) : list string :=
  match i with
  | Joined n v => [("--" ++ n ++ "=" ++ v)%string]
  | Apart n v => [("--" ++ n)%string; v]
  | FileName f => [f]
  | Help => ["--help"%string]
  end.

(** The lines of a configuration file: nothing but blanks, or an assignment with blanks
    around its parts; either may end in a comment. *)
Inductive line : Type :=
| Empty (b : string) (comment : option string)
| Assign (b1 n b2 b3 v b4 : string) (comment : option string).
Definition comment_text (c : option string) : string :=
  match c with Some t => ("#" ++ t)%string | None => ""%string end.
Definition line_text (l : line) : string :=
  match l with
  | Empty b c => (b ++ comment_text c)%string
  | Assign b1 n b2 b3 v b4 c => (b1 ++ n ++ b2 ++ "=" ++ b3 ++ v ++ b4 ++ comment_text c)%string
  end.
Definition file_text (l : list line) : string := fold_right append ""%string (map (fun x => line_text x ++ nl)%string l).
Definition good_comment (c : option string) : Prop := match c with Some t => free_of "010" t | None => True end.
(** What the lines assign, in order. *)
Definition line_sets (l : line) : list (string * string) :=
  match l with Empty _ _ => [] | Assign _ n _ _ v _ _ => [(n, v)] end.
Definition file_sets (l : list line) : list (string * string) := flat_map line_sets l.

Section Tables.
  Context {V : Type} (table : list (opt V)).

  (** A name written on the command line stands for the option [name]: it is that name, or the
      beginning of that name only and not itself an option. *)
  Definition stands_for (n name : string) : Prop :=
    n <> ""%string /\ In name (map o_name table) /\
    (n = name \/
     ~ In n (map o_name table) /\ starts_with n name /\
     forall other, In other (map o_name table) -> starts_with n other -> other = name).
  (** A name that stands for no option: no option begins like this, or it is not an option
      and several begin like this. *)
  Definition stands_for_none (n : string) : Prop :=
    n <> ""%string /\ free_of "=" n /\ ~ In n (map o_name table) /\
    ((forall other, In other (map o_name table) -> ~ starts_with n other) \/
     exists a b, a <> b /\ In a (map o_name table) /\ In b (map o_name table) /\ starts_with n a /\ starts_with n b).

  (** The option takes a value. *)
  Definition valued (n : string) : Prop :=
    exists o, In o table /\ o_name o = n /\ o_kind o <> KFlag.

  (** [item_sets i n v]: the item gives the option n the value v. *)
  Definition item_sets (i : item) (n v : string) : Prop :=
    match i with
    | Joined a t => stands_for a n /\ valued n /\ v = t /\ t <> ""%string
    | Apart a t => stands_for a n /\ valued n /\ v = t /\ ~ starts_with "--" t
    | FileName f => n = "config_file"%string /\ v = f /\ ~ starts_with "--" f
    | Help => n = "help"%string /\ v = ""%string
    end.

  (** A line that can stand in a configuration file. *)
  Definition good_line (l : line) : Prop :=
    match l with
    | Empty b c => blanks b /\ good_comment c
    | Assign b1 n b2 b3 v b4 c =>
        blanks b1 /\ blanks b2 /\ blanks b3 /\ blanks b4 /\ In n (map o_name table) /\ plain_value v /\ good_comment c
    end.

  (** The text v is a value for the option n, namely x. *)
  Definition accepts (read : string -> res V) (n v : string) (x : value V) : Prop :=
    exists o, In o table /\ o_name o = n /\ convert read (o_kind o) v = Ok x.
End Tables.

(** The assignments of the configuration file that the command line leaves in force. *)
Definition in_force (cmd cfg : list (string * string)) : list (string * string) :=
  filter (fun a => negb (existsb (fun b => String.eqb (fst b) (fst a)) cmd)) cfg.

(** f is the configuration file: the one named on the command line, else the one named by the
    program so far. *)
Definition opened {V} (cmd : list (string * string)) (opts : members V) (f : string) : Prop :=
  In ("config_file"%string, f) cmd \/ ~ In "config_file"%string (map fst cmd) /\ opts "config_file"%string = VString f.
