(** Doubles and their text: what operator<< with std::scientific prints
    (file_io/vtk_solution_writer.cpp:69-98 and 150-182) and what boost::lexical_cast<double> reads
    (file_io/vtk_solution_reader.cpp:106-108, 144, 199, 207).  Both round correctly, as the C
    library's printf and strtod do. *)
From Coq Require Import ZArith List String Ascii Bool SpecFloat.
From Flocq Require Import Core.FLX IEEE754.BinarySingleNaN.
From Verif Require Import Outcome Num ModelText.
Local Open Scope string_scope.
Local Open Scope Z_scope.

(** IEEE-754 binary64 (/repo/typedefs.hpp: real_t, real_wp), with one NaN. *)
Definition double : Type := binary_float 53 1024.

Definition prec_positive : FLX.Prec_gt_0 53 := eq_refl.
Definition prec_below_emax : Prec_lt_emax 53 1024 := eq_refl.
Local Existing Instance prec_positive.
Local Existing Instance prec_below_emax.

(** Arithmetic of doubles, rounding to nearest even.  [npow3] and [npow2] stand for libm's pow, which
    IEEE-754 does not fix; they are used by no theorem. *)
Definition double_int (z : Z) : double := binary_normalize 53 1024 _ _ mode_NE z 0 false.
Definition Num_double : Num double := {|
  nadd := Bplus mode_NE;
  nsub := Bminus mode_NE;
  nmul := Bmult mode_NE;
  ndiv := Bdiv mode_NE;
  nopp := Bopp;
  nint := double_int;
  nrat := fun p q => Bdiv mode_NE (double_int p) (double_int (Zpos q));
  npow3 := fun x => Bmult mode_NE (Bmult mode_NE x x) x;
  npow2 := fun x => Bmult mode_NE x x;
  nsqrt := Bsqrt mode_NE;
  nabs := Babs;
  nltb := Bltb;
  neqb := Beqb
|}.

(** The largest k with 10^k <= a/b, for positive a and b. *)
Definition expo10 (a b : Z) : Z :=
  if b <=? a then Z.of_nat (String.length (dec (a / b))) - 1
  else - Z.of_nat (String.length (dec ((b - 1) / a))).

(** The integer nearest to a/b, the even one of two. *)
Definition nearest (a b : Z) : Z :=
  let q := a / b in
  match 2 * (a mod b) ?= b with
  | Lt => q
  | Gt => q + 1
  | Eq => if Z.even q then q else q + 1
  end.

(** The p significant decimal digits of a/b, as an integer, and the decimal exponent of the first. *)
Definition decimal (p a b : Z) : Z * Z :=
  let k := expo10 a b in
  let e := k - (p - 1) in
  let n := if 0 <=? e then nearest a (b * 10 ^ e) else nearest (a * 10 ^ (- e)) b in
  if n =? 10 ^ p then (10 ^ (p - 1), k + 1) else (n, k).

Definition sign_text (s : bool) : string := if s then "-" else "".
(** The first digit, the point, the others. *)
Definition mantissa_text (n : Z) : string :=
  match dec n with
  | String c r => String c ("." ++ r)
  | EmptyString => ""
  end.
(** At least two digits. *)
Definition exponent_text (k : Z) : string := (if k <? 0 then "e-" else "e+") ++ pad0 2 (dec (Z.abs k)).

(** [out << std::scientific << std::setprecision(p - 1) << x], for p of at least 2: the conversion
    %.*e.  A NaN may carry a sign, which is left out. *)
Definition scientific (p : Z) (x : spec_float) : string :=
  match x with
  | S754_zero s => sign_text s ++ "0." ++ repeat_char "0" (Z.to_nat (p - 1)) "" ++ "e+00"
  | S754_infinity s => sign_text s ++ "inf"
  | S754_nan => "nan"
  | S754_finite s m e =>
      let '(n, k) := decimal p (Zpos m * 2 ^ (Z.max e 0)) (2 ^ (Z.max (- e) 0)) in
      sign_text s ++ mantissa_text n ++ exponent_text k
  end.

(** Field values and coordinates are printed with precision digits10 + 1 = 16
    (vtk_solution_writer.cpp:86, 97, 167, 180), after std::scientific was set in line 69 or
    150, which stays in force; time and step size with the default precision 6 (lines 69, 75, 150, 156). *)
Definition show_value (x : double) : string := scientific 17 (B2SF x).
Definition show_time (x : double) : string := scientific 7 (B2SF x).

(** The double nearest to (-1)^s a/b, the even one of two; infinite if too large. *)
Definition round_ratio (s : bool) (a b : positive) : spec_float :=
  let '(q, e, l) := SFdiv_core_binary 53 1024 (Zpos a) 0 (Zpos b) 0 in
  SpecFloat.binary_round_aux 53 1024 s q e l.

Definition split_sign (s : string) : bool * string :=
  match s with
  | String "-" r => (true, r)
  | String "+" r => (false, r)
  | _ => (false, s)
  end.
(** The digits at the front, and the rest. *)
Fixpoint take_digits (s : string) : string * string :=
  match s with
  | EmptyString => ("", "")
  | String c r =>
      match digit_value c with
      | Some _ => let '(d, t) := take_digits r in (String c d, t)
      | None => ("", s)
      end
  end.
Definition lower (c : ascii) : ascii :=
  let n := N_of_ascii c in
  if ((65 <=? n) && (n <=? 90))%N then ascii_of_N (n + 32) else c.
Fixpoint lowercase (s : string) : string :=
  match s with EmptyString => "" | String c r => String (lower c) (lowercase r) end.

(** (-1)^s n 10^e; too large a number fails the conversion. *)
Definition double_of_decimal (s : bool) (n e : Z) : res spec_float :=
  match n with
  | Zpos a =>
      let r := if 0 <=? e then round_ratio s (a * Z.to_pos (10 ^ e)) 1 else round_ratio s a (Z.to_pos (10 ^ (- e))) in
      match r with
      | S754_infinity _ => Throw
      | z => Ok z
      end
  | _ => Ok (S754_zero s)
  end.

(** [boost::lexical_cast<double>(string)]: an optional sign; inf, infinity or nan in any case (boost also
    takes nan(...), which is left out); or digits with at most one point, at least one digit, and an
    optional exponent.  Anything else throws bad_lexical_cast. *)
Definition read_number (s : string) : res spec_float :=
  let '(neg, r) := split_sign s in
  let l := lowercase r in
  if String.eqb l "nan" then Ok S754_nan
  else if String.eqb l "inf" || String.eqb l "infinity" then Ok (S754_infinity neg)
  else
    let '(ip, r1) := take_digits r in
    let '(fp, r2) := match r1 with String "." t => take_digits t | _ => ("", r1) end in
    match unsigned_value (ip ++ fp) with
    | None => Throw
    | Some n =>
        let scale := - Z.of_nat (String.length fp) in
        match r2 with
        | EmptyString => double_of_decimal neg n scale
        | String c t =>
            if Ascii.eqb (lower c) "e" then
              let '(eneg, u) := split_sign t in
              match unsigned_value u with
              | Some v => double_of_decimal neg n (scale + (if eneg then - v else v))
              | None => Throw
              end
            else Throw
        end
    end.

(** A [spec_float] that is a double, as one; C73_read shows that reading gives nothing else. *)
Definition as_double (x : spec_float) : res double :=
  match Bool.bool_dec (valid_binary 53 1024 x) true with
  | left h => Ok (SF2B x h)
  | right _ => UB
  end.
Definition read_double (s : string) : res double := rbind (read_number s) as_double.
