(** Text handling used by the file, option and log code: decimal printing, the boost string
    functions trim_if and split, and boost::lexical_cast<int>.  Strings are sequences of
    8-bit characters. *)
From Coq Require Import ZArith List String Ascii Bool.
Import ListNotations.
From Verif Require Import Outcome.
Local Open Scope string_scope.
Local Open Scope Z_scope.

(** The newline and the tab. *)
Definition nl : string := String "010"%char EmptyString.
Definition tab : ascii := "009"%char.

Definition digit_char (d : Z) : ascii := ascii_of_N (Z.to_N (48 + d)).

(** [operator<<(int)], [std::to_string(int)]: least significant digit last. *)
Fixpoint dec_digits (fuel : nat) (n : Z) (acc : string) : string :=
  match fuel with
  | O => acc
  | S f => let acc := String (digit_char (n mod 10)) acc in
           if n <? 10 then acc else dec_digits f (n / 10) acc
  end.
Definition dec (n : Z) : string :=
  if n <? 0 then String "-" (dec_digits (S (Z.to_nat (Z.log2 (- n)))) (- n) "")
  else dec_digits (S (Z.to_nat (Z.log2 n))) n "".

(** The value of a character as a decimal digit. *)
Definition digit_value (c : ascii) : option Z :=
  let v := Z.of_N (N_of_ascii c) - 48 in
  if (0 <=? v) && (v <? 10) then Some v else None.
Fixpoint digits_value (v : Z) (s : string) : option Z :=
  match s with
  | EmptyString => Some v
  | String c s' => match digit_value c with Some x => digits_value (10 * v + x) s' | None => None end
  end.
Definition unsigned_value (s : string) : option Z :=
  match s with EmptyString => None | _ => digits_value 0 s end.

(** [boost::lexical_cast<int>(string)]: an optional sign and at least one digit, nothing else;
    anything else, and a value outside int, throws bad_lexical_cast.  (Locale-dependent
    digit grouping, which boost would also accept, is left out: the program never sets a
    locale.) *)
Definition lexical_int (s : string) : res Z :=
  let r := match s with
           | String "-" s' => option_map Z.opp (unsigned_value s')
           | String "+" s' => unsigned_value s'
           | _ => unsigned_value s
           end in
  match r with
  | Some v => if (-2147483648 <=? v) && (v <=? 2147483647) then Ok v else Throw
  | None => Throw
  end.

(** [std::setw(w) << std::setfill('0')] on a string: pad on the left. *)
Fixpoint repeat_char (c : ascii) (n : nat) (s : string) : string :=
  match n with O => s | S m => String c (repeat_char c m s) end.
Definition pad0 (w : Z) (s : string) : string :=
  repeat_char "0" (Z.to_nat w - String.length s) s.

(** [boost::is_any_of(chars)] *)
Fixpoint any_of (chars : string) (c : ascii) : bool :=
  match chars with EmptyString => false | String x r => Ascii.eqb x c || any_of r c end.

(** [boost::trim_if(s, p)]: drops the characters satisfying p at both ends. *)
Fixpoint trim_left (p : ascii -> bool) (s : string) : string :=
  match s with
  | EmptyString => EmptyString
  | String c s' => if p c then trim_left p s' else s
  end.
Fixpoint trim_right (p : ascii -> bool) (s : string) : string :=
  match s with
  | EmptyString => EmptyString
  | String c s' =>
      match trim_right p s' with
      | EmptyString => if p c then EmptyString else String c EmptyString
      | t => String c t
      end
  end.
Definition trim_if (p : ascii -> bool) (s : string) : string := trim_right p (trim_left p s).

(** [boost::algorithm::split(out, s, p, token_compress_on)]: the pieces between maximal runs
    of separators; a run at an end leaves an empty piece there, and the empty string gives
    one empty piece. [cur] is the piece being read, [in_run] says whether the previous
    character was a separator. *)
Fixpoint split_from (p : ascii -> bool) (in_run : bool) (cur : string) (s : string) : list string :=
  match s with
  | EmptyString => [cur]
  | String c s' =>
      if p c then (if in_run then split_from p true cur s' else cur :: split_from p true "" s')
      else split_from p false (cur ++ String c EmptyString) s'
  end.
Definition split_compress (p : ascii -> bool) (s : string) : list string := split_from p false "" s.

(** A loop over a list whose body can fail. *)
Fixpoint mapM {A B} (f : A -> res B) (l : list A) : res (list B) :=
  match l with
  | [] => Ok []
  | a :: l' => rbind (f a) (fun b => rbind (mapM f l') (fun r => Ok (b :: r)))
  end.
Fixpoint foldM {A B} (f : B -> A -> res B) (l : list A) (b : B) : res B :=
  match l with [] => Ok b | a :: l' => rbind (f b a) (fun b' => foldM f l' b') end.
