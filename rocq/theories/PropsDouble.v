(** Doubles and their text in solution files: C73.

    [show_value] prints a coordinate or field value, [show_time] the time or the step size,
    [read_double] reads either back.  [rounded v] is the double nearest to v, [value_of x] the
    number a finite double stands for (SpecDouble).  The [N] of the file theorems is any
    arithmetic on doubles. *)
From Coq Require Import ZArith Reals String Ascii List Lra Lia SpecFloat.
From Flocq Require Import IEEE754.BinarySingleNaN.
From Verif Require Import Outcome ZList Num SpecGrid ModelDisc3D ModelDisc2D ModelVTK SpecVTK ModelDouble SpecDouble SpecNumber Double6Proofs DoubleFinal.
Import ListNotations.
Local Open Scope string_scope.
Local Open Scope list_scope.
Local Open Scope Z_scope.

(** Reading: a decimal number is read as the double nearest to it, the one with an even last bit if
    two are equally near, with the sign that was written; it fails exactly if that is too large for
    a double. *)
Theorem C73_read :
  forall l : literal, good_literal l ->
  ((Rabs (rounded (literal_value l)) < largest)%R ->
   exists x : double, read_double (literal_text l) = Ok x /\ is_finite x = true /\
     value_of x = rounded (literal_value l) /\ Bsign x = l_minus l) /\
  ((largest <= Rabs (rounded (literal_value l)))%R -> read_double (literal_text l) = Throw).
Proof. exact pf_C73_read. Qed.
Print Assumptions C73_read.

Example C73_read_ex : good_literal ex_literal /\ literal_text ex_literal = "-12.50e-01" /\ literal_value ex_literal = (-125 / 100)%R.
Proof.
  split; [|split; [reflexivity|]].
  - repeat split; cbn; try discriminate; try (repeat constructor; lia); auto.
  - unfold literal_value, ex_literal. cbn [l_exponent l_whole l_fraction l_minus app List.length].
    change (number [1; 2; 5; 0]) with 1250. change (if String.eqb "-" "-" then - number [0; 1] else number [0; 1]) with (-1).
    change (-1 - Z.of_nat 2) with (-3). simpl powerRZ. field.
Qed.

(** Reading does not depend on the capitalisation of letters: the exponent may follow an e or an E. *)
Theorem C73_capitals :
  forall s t : string, same_text s t -> read_double s = read_double t.
Proof. exact pf_C73_capitals. Qed.
Print Assumptions C73_capitals.

Example C73_capitals_ex : same_text "-12.50E-01" (literal_text ex_literal) /\ same_text "Inf" "iNF".
Proof.
  cbn. split; repeat split; try (left; reflexivity); right.
  - exists 4%nat. left. split; reflexivity.
  - exists 8%nat. left. split; reflexivity.
  - exists 13%nat. right. split; reflexivity.
  - exists 5%nat. right. split; reflexivity.
Qed.

(** inf and infinity, with or without a sign, are read as the infinite doubles, nan as not a number. *)
Theorem C73_special :
  forall s t : string, same_text s t ->
  (t = "inf" \/ t = "infinity" ->
     read_double s = Ok (B754_infinity false) /\ read_double ("+" ++ s)%string = Ok (B754_infinity false) /\
     read_double ("-" ++ s)%string = Ok (B754_infinity true)) /\
  (t = "nan" -> read_double s = Ok B754_nan).
Proof. exact pf_C73_special. Qed.
Print Assumptions C73_special.

Example C73_special_ex : read_double "-Inf" = Ok (B754_infinity true) /\ read_double "NaN" = Ok B754_nan.
Proof. split; reflexivity. Qed.

(** A number written without its point, such as 12 or 1e-6, is read as it would be with one. *)
Theorem C73_no_point :
  forall l : literal, good_literal l -> l_fraction l = [] -> read_double (short_text l) = read_double (literal_text l).
Proof. exact pf_C73_no_point. Qed.
Print Assumptions C73_no_point.

Example C73_no_point_ex : good_literal ex_short /\ l_fraction ex_short = [] /\ short_text ex_short = "1e-6" /\
  read_double "1e-6" = read_double "1.e-6" /\ read_double "1e-6" = read_double "0.000001".
Proof.
  split; [repeat split; cbn; try discriminate; try (repeat constructor; lia); auto|].
  split; [reflexivity|]. split; [reflexivity|]. split; [exact (C73_no_point ex_short ex_short_good eq_refl)|exact ex_short_same].
Qed.

(** Any text that is not a number in digits, with a point or without, and not an infinity (and does not
    begin as nan does) is refused: reading it throws, and never gives a number. *)
Theorem C73_refuses :
  forall s : string, ~ is_number s -> ~ is_word s -> read_double s = Throw.
Proof. exact pf_C73_refuses. Qed.
Print Assumptions C73_refuses.

Example C73_refuses_ex : ~ is_number "12e" /\ ~ is_word "12e" /\ read_double "12e" = Throw.
Proof. split; [|split]; [exact (proj1 not_twelve_e)|exact (proj2 not_twelve_e)|reflexivity]. Qed.

(** Printing with p significant digits: a finite double other than zero is printed as a decimal
    number with one digit before the point, p - 1 after it and its sign, that differs from it by
    at most half a unit of the last digit. *)
Theorem C73_print :
  forall (p : Z) (x : double), 2 <= p -> is_finite x = true -> value_of x <> 0%R ->
  exists l k, good_literal l /\ scientific p (B2SF x) = literal_text l /\ List.length (l_whole l) = 1%nat /\
    Z.of_nat (List.length (l_fraction l)) = p - 1 /\ l_minus l = Bsign x /\ order (value_of x) k /\
    (Rabs (literal_value l - value_of x) <= powerRZ 10 (k - (p - 1)) / 2)%R.
Proof. exact pf_C73_print. Qed.
Print Assumptions C73_print.

Example C73_print_ex : scientific 17 (B2SF (dbl "-0.1")) = "-1.0000000000000001e-01" /\ is_finite (dbl "-0.1") = true.
Proof. split; reflexivity. Qed.

(** Every double printed as a field value or coordinate - zeros of either sign, subnormal numbers,
    infinities and NaN included - is one word, and reading it gives back the same double, bit for
    bit. *)
Theorem C73_round_trip :
  forall x : double, prints show_value read_double x.
Proof. exact pf_C73_round_trip. Qed.
Print Assumptions C73_round_trip.

Example C73_round_trip_ex : show_value ex_tenths = "3.0000000000000004e-01" /\ show_value (dbl "-0") = "-0.0000000000000000e+00" /\
  show_value (B754_infinity true) = "-inf".
Proof. split; [|split]; reflexivity. Qed.

(** One digit fewer would not do: a double that 16 significant digits do not bring back. *)
Theorem C73_sixteen_refuted :
  exists x y : double, read_double (scientific 16 (B2SF x)) = Ok y /\ x <> y.
Proof. exact pf_C73_sixteen_refuted. Qed.
Print Assumptions C73_sixteen_refuted.

(** A time or step size that is the double nearest to a number of at most seven decimal digits is
    read back exactly. *)
Theorem C73_seven_digits :
  forall x : double, short_decimal x -> prints show_time read_double x.
Proof. exact pf_C73_seven_digits. Qed.
Print Assumptions C73_seven_digits.

Example C73_seven_digits_ex : short_decimal (dbl "3e-7") /\ show_time (dbl "3e-7") = "3.000000e-07".
Proof.
  assert (G : good_literal {| l_minus := false; l_plus := false; l_whole := [3]; l_fraction := []; l_exponent := Some ("-", [7]) |}).
  { repeat split; cbn; try discriminate; try (repeat constructor; lia); auto. }
  assert (V : literal_value {| l_minus := false; l_plus := false; l_whole := [3]; l_fraction := []; l_exponent := Some ("-", [7]) |}
              = (3 * powerRZ 10 (-7))%R).
  { unfold literal_value, number. cbn [fold_left l_exponent l_whole l_fraction l_minus app List.length String.eqb Ascii.eqb Bool.eqb].
    change (- (10 * 0 + 7) - Z.of_nat 0) with (-7). rewrite Rmult_1_l. reflexivity. }
  split; [|reflexivity]. split; [reflexivity|]. exists (3 * powerRZ 10 (-7))%R.
  split; [exists 3, (-7); split; reflexivity|]. split.
  { right. rewrite Rabs_pos_eq by (apply Rmult_le_pos; [lra|]; apply powerRZ_le; lra).
    change (-1022) with (-30 + -992). rewrite powerRZ_add by lra.
    assert (A : (powerRZ 2 (-992) <= 1)%R).
    { change (powerRZ 2 (-992)) with (/ 2 ^ Pos.to_nat 992)%R. rewrite <- Rinv_1. apply Rinv_le_contravar; [lra|].
      apply pow_R1_Rle. lra. }
    assert (B : (0 < powerRZ 2 (-992))%R) by (apply powerRZ_lt; lra).
    assert (A10 : (powerRZ 2 (-30) = / 1073741824)%R) by (unfold powerRZ; f_equal; simpl; ring).
    assert (A7 : (powerRZ 10 (-7) = / 10000000)%R) by (unfold powerRZ; f_equal; simpl; ring).
    rewrite A10, A7. lra. }
  assert (R0 : read_double "3.e-7" = Ok (dbl "3e-7")) by reflexivity.
  pose proof (pf_C73_read _ G) as (H1 & H2). rewrite V in H1, H2.
  change (literal_text {| l_minus := false; l_plus := false; l_whole := [3]; l_fraction := []; l_exponent := Some ("-", [7]) |}) with "3.e-7" in H1, H2.
  destruct (Rlt_or_le (Rabs (rounded (3 * powerRZ 10 (-7)))) largest) as [A|A].
  - destruct (H1 A) as (x & E & _ & Vx & _). rewrite R0 in E. rewrite (ok_inj _ _ E). exact Vx.
  - rewrite (H2 A) in R0. discriminate R0.
Qed.

(** Any other time or step size is read back with a relative error of at most 5.1e-7. *)
Theorem C73_time_error :
  forall x : double, is_finite x = true ->
  (powerRZ 10 (-300) <= Rabs (value_of x) <= powerRZ 10 300)%R ->
  word (show_time x) /\
  exists y : double, read_double (show_time x) = Ok y /\ is_finite y = true /\
    (Rabs (value_of y - value_of x) <= 51 / 100000000 * Rabs (value_of x))%R.
Proof. exact pf_C73_time_error. Qed.
Print Assumptions C73_time_error.

(** A time that is not read back exactly: the one reached by three steps of size 0.1 from 0. *)
Theorem C73_time_refuted :
  exists x y z : double, read_double "0.1" = Ok x /\
    y = nadd (Num := Num_double) (nadd (Num := Num_double) x x) x /\ read_double (show_time y) = Ok z /\ z <> y.
Proof. exact pf_C73_time_refuted. Qed.
Print Assumptions C73_time_refuted.

(** A 3D solution file of doubles brings back every interior value bit for bit, whatever the values,
    onto any grid with as many cells; it changes nothing outside the interior, and cannot be read
    into a 2D solution. *)
Theorem C73_file_3d :
  forall (N : Num double) (dom dom' : domain double) (d d' : disc3 double) (st : file_status double)
    (c c0 : list double) (u : Z -> Z -> Z -> double) (raw : domain double),
  valid_domain3 dom -> make3 dom = Ok d -> holds_inside3 dom c u ->
  nx dom <= 2147483647 -> ny dom <= 2147483647 -> nz dom <= 2147483647 ->
  valid_domain3 dom' -> make3 dom' = Ok d' -> nx dom' = nx dom -> ny dom' = ny dom -> nz dom' = nz dom ->
  zlen c0 = cells3 dom' ->
  exists doc, write3 show_value show_time st d c = Ok doc /\
    (exists c1, set_solution read_double doc raw (Target3 d' c0) = Ok (Target3 d' c1) /\
      holds_inside3 dom' c1 u /\ same_halo3 dom' c0 c1) /\
    (forall d2 c2, set_solution read_double doc raw (Target2 d2 c2) = Throw).
Proof. exact pf_C73_file_3d. Qed.
Print Assumptions C73_file_3d.

Example C73_file_3d_ex : valid_domain3 ex_box /\ (exists d, make3 (N := Num_double) ex_box = Ok d) /\
  holds_inside3 ex_box (repeat ex_tenths 64) (fun _ _ _ => ex_tenths).
Proof.
  split; [repeat split; vm_compute; congruence|]. split; [apply is_ok_some; vm_compute; reflexivity|].
  split; [reflexivity|]. intros i j k (A & B & C). cbn in A, B, C.
  assert (I : i = 0 \/ i = 1) by lia. assert (J : j = 0 \/ j = 1) by lia. assert (K : k = 0 \/ k = 1) by lia.
  destruct I as [-> | ->], J as [-> | ->], K as [-> | ->]; reflexivity.
Qed.

(** The same in 2D. *)
Theorem C73_file_2d :
  forall (N : Num double) (dom dom' : domain double) (d d' : disc2 double) (st : file_status double)
    (c c0 : list double) (u : Z -> Z -> double) (raw : domain double),
  valid_domain2 dom -> make2 dom = Ok d -> holds_inside2 dom c u -> nx dom <= 2147483647 ->
  valid_domain2 dom' -> make2 dom' = Ok d' -> nx dom' = nx dom -> zlen c0 = cells2 dom' ->
  exists doc, write2 show_value show_time st d c = Ok doc /\
    (exists c1, set_solution read_double doc raw (Target2 d' c0) = Ok (Target2 d' c1) /\
      holds_inside2 dom' c1 u /\ same_halo2 dom' c0 c1) /\
    (forall d3 c3, set_solution read_double doc raw (Target3 d3 c3) = Throw).
Proof. exact pf_C73_file_2d. Qed.
Print Assumptions C73_file_2d.

Example C73_file_2d_ex : valid_domain2 ex_square /\ (exists d, make2 (N := Num_double) ex_square = Ok d) /\
  holds_inside2 ex_square (repeat ex_tenths 49) (fun _ _ => ex_tenths).
Proof.
  split; [repeat split; vm_compute; congruence|]. split; [apply is_ok_some; vm_compute; reflexivity|].
  split; [reflexivity|]. intros i j (A & B). cbn in A, B.
  assert (I : i = 0 \/ i = 1 \/ i = 2) by lia. assert (J : j = 0 \/ j = 1 \/ j = 2) by lia.
  destruct I as [-> | [-> | ->]], J as [-> | [-> | ->]]; reflexivity.
Qed.

(** The grid is not always brought back exactly: on the grid of 3 by 3 cells from 0.1 to 0.3, the grid
    rebuilt from a solution file has another spacing (in its last bit), so a restarted run solves
    slightly different equations. *)
Theorem C73_spacing_refuted :
  exists (dom dom' : domain double) (d d' : disc2 double) (c : list double) (doc : list xml) (dim : Z),
  valid_domain2 dom /\ make2 (N := Num_double) dom = Ok d /\ zlen c = cells2 dom /\
  write2 show_value show_time {| fs_iter := 1; fs_time := B754_zero false; fs_dt := B754_zero false |} d c = Ok doc /\
  read_domain (N := Num_double) read_double doc dom = Ok (dom', dim) /\
  nx dom' = nx dom /\ make2 (N := Num_double) dom' = Ok d' /\ d2_dx d' <> d2_dx d.
Proof. exact pf_C73_spacing_refuted. Qed.
Print Assumptions C73_spacing_refuted.
