(** Vocabulary for decimal text and the doubles it stands for. *)
From Coq Require Import ZArith List String Ascii Reals.
From Flocq Require Import Core IEEE754.BinarySingleNaN.
From Verif Require Import ModelDouble.
Import ListNotations.
Local Open Scope Z_scope.

(** Decimal digits, the number they stand for, and how they are written. *)
Definition digits (ds : list Z) : Prop := Forall (fun d => 0 <= d <= 9) ds.
Definition number (ds : list Z) : Z := fold_left (fun n d => 10 * n + d) ds 0.
Fixpoint written (ds : list Z) : string :=
  match ds with
  | [] => ""
  | d :: r => String (ascii_of_nat (48 + Z.to_nat d)) (written r)
  end%string.

(** An optional sign, digits, a point, digits, and an optional exponent, with a sign if negative. *)
Record literal : Type := { l_minus : bool; l_plus : bool; l_whole : list Z; l_fraction : list Z; l_exponent : option (string * list Z) }.
Definition good_literal (l : literal) : Prop :=
  digits (l_whole l) /\ digits (l_fraction l) /\ l_whole l ++ l_fraction l <> [] /\ (l_minus l = true -> l_plus l = false) /\
  match l_exponent l with
  | None => True
  | Some (s, ds) => (s = "" \/ s = "+" \/ s = "-")%string /\ digits ds /\ ds <> []
  end.
Definition literal_text (l : literal) : string :=
  ((if l_minus l then "-" else if l_plus l then "+" else "") ++ written (l_whole l) ++ "." ++ written (l_fraction l) ++
   match l_exponent l with None => "" | Some (s, ds) => "e" ++ s ++ written ds end)%string.
Definition literal_value (l : literal) : R :=
  let e := match l_exponent l with
           | None => 0
           | Some (s, ds) => if String.eqb s "-" then - number ds else number ds
           end in
  ((if l_minus l then -1 else 1) * IZR (number (l_whole l ++ l_fraction l)) *
   powerRZ 10 (e - Z.of_nat (List.length (l_fraction l))))%R.

(** The value of a finite double; the double nearest to a number, the even one of two, ignoring the largest exponent. *)
Definition value_of (x : double) : R := B2R x.
Definition rounded (v : R) : R := round radix2 (FLT_exp (-1074) 53) ZnearestE v.
Definition largest : R := powerRZ 2 1024.

(** v is a number of at most p decimal digits. *)
Definition of_digits (p : Z) (v : R) : Prop :=
  exists n e : Z, v = (IZR n * powerRZ 10 e)%R /\ Z.abs n < 10 ^ p.
(** 10^k is the power of ten just below the size of v. *)
Definition order (v : R) (k : Z) : Prop := (powerRZ 10 k <= Rabs v < powerRZ 10 (k + 1))%R.

(** x is the double nearest to a number of at most seven decimal digits, which is zero or not subnormal. *)
Definition short_decimal (x : double) : Prop :=
  is_finite x = true /\
  exists v, of_digits 7 v /\ (v = 0 \/ powerRZ 2 (-1022) <= Rabs v)%R /\ value_of x = rounded v.

(** The same text up to the capitalisation of its letters. *)
Definition capitals : string := "ABCDEFGHIJKLMNOPQRSTUVWXYZ".
Definition smalls : string := "abcdefghijklmnopqrstuvwxyz".
Definition same_letter (c d : ascii) : Prop :=
  c = d \/ exists i, (String.get i capitals = Some c /\ String.get i smalls = Some d) \/
                     (String.get i smalls = Some c /\ String.get i capitals = Some d).
Fixpoint same_text (s t : string) : Prop :=
  match s, t with
  | EmptyString, EmptyString => True
  | String c s', String d t' => same_letter c d /\ same_text s' t'
  | _, _ => False
  end.
