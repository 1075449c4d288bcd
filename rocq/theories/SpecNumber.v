(** The texts of numbers: what C73 says about texts without a point and about everything else. *)
From Coq Require Import ZArith List String Ascii.
From Verif Require Import SpecDouble.
Import ListNotations.
Local Open Scope string_scope.

(** The literal written without its point, as in 12 or -1e-6: only its whole part counts. *)
Definition short_text (l : literal) : string :=
  (if l_minus l then "-" else if l_plus l then "+" else "") ++ written (l_whole l) ++
  match l_exponent l with None => "" | Some (s, ds) => "e" ++ s ++ written ds end.

(** s is a number in digits, with a point or without. *)
Definition is_number (s : string) : Prop :=
  exists l, good_literal l /\
    (same_text s (literal_text l) \/ l_fraction l = [] /\ same_text s (short_text l)).

(** s is an infinity, or begins as "not a number" does. *)
Definition is_word (s : string) : Prop :=
  exists sign w, (sign = "" \/ sign = "+" \/ sign = "-") /\
    (w = "inf" \/ w = "infinity" \/ exists t, w = "nan" ++ t) /\ same_text s (sign ++ w).
