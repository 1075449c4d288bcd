(** Rounding errors in double precision: C76 (sums and norms) and C77 (the right-hand side and the mean).

    [N] is any arithmetic on doubles whose operations round as IEEE-754 prescribes ([ieee], and
    [ieee_norm] for square roots and squares; SpecAccuracy).  [value_of x] is the real number a
    finite double stands for, [unit_roundoff] is 2^-53, [tiny] is 2^-1022. *)
From Coq Require Import Reals Lra ZArith Lia List String.
From Flocq Require Import BinarySingleNaN.
From Verif Require Import Outcome ZList Num Kernel ModelDisc3D ModelDisc2D ModelCH SpecGrid SpecField
  ModelReduce ModelTime ModelRun SpecTime ModelMon CHProofs ModelDouble SpecDouble SpecAccuracy AccuracyFinal.
Import ListNotations.
Local Open Scope string_scope.
Local Open Scope list_scope.
Local Open Scope Z_scope.

(** The growth factor of k roundings is at most (k + 1) times the unit roundoff. *)
Theorem C76_growth :
  forall k : nat, Z.of_nat k <= 2 ^ 25 -> (0 <= growth k <= INR (k + 1) * unit_roundoff)%R.
Proof. exact pf_C76_growth. Qed.
Print Assumptions C76_growth.

Example C76_growth_ex : Z.of_nat 1000 <= 2 ^ 25.
Proof. vm_compute. discriminate. Qed.

(** A parallel sum of doubles, whatever the number of threads, the order and the bracketing: if the
    result is finite then so are all summands, and it differs from the exact sum of their values by at
    most (number of summands) * unit_roundoff times the sum of the absolute values (C76_growth). *)
Theorem C76_sum :
  forall (N : Num double) (l : list double) (v : double),
  ieee N -> reduction nadd (nint 0) (nint 0) l v -> finite v ->
  Forall finite l /\
  (Rabs (value_of v - total (map value_of l)) <= growth (List.length l - 1) * total_abs (map value_of l))%R.
Proof. exact pf_C76_sum. Qed.
Print Assumptions C76_sum.

Example C76_sum_ex : (* two brackets of 1 + 2^-53 + 2^-53 that round differently *)
  exists v w : double,
  reduction (V := double) (nadd (Num := Num_double)) (nint (Num := Num_double) 0) (nint (Num := Num_double) 0) ex_terms v /\
  reduction (V := double) (nadd (Num := Num_double)) (nint (Num := Num_double) 0) (nint (Num := Num_double) 0) ex_terms w /\
  finite v /\ finite w /\ B2SF v <> B2SF w.
Proof. exact ex_two_orders. Qed.

(** Hence two runs with different numbers of threads report sums that differ by at most twice that. *)
Theorem C76_orders :
  forall (N : Num double) (l : list double) (v w : double),
  ieee N -> reduction nadd (nint 0) (nint 0) l v -> reduction nadd (nint 0) (nint 0) l w -> finite v -> finite w ->
  (Rabs (value_of v - value_of w) <= 2 * growth (List.length l - 1) * total_abs (map value_of l))%R.
Proof. exact pf_C76_orders. Qed.
Print Assumptions C76_orders.

Example C76_orders_ex : exists v w : double,
  reduction (V := double) (nadd (Num := Num_double)) (nint (Num := Num_double) 0) (nint (Num := Num_double) 0) ex_terms v /\
  reduction (V := double) (nadd (Num := Num_double)) (nint (Num := Num_double) 0) (nint (Num := Num_double) 0) ex_terms w /\
  finite v /\ finite w /\ B2SF v <> B2SF w.
Proof. exact ex_two_orders. Qed.

(** The residual norm that the log reports for an equation, in doubles and with any parallel sum: if it
    is finite then every interior value is, and if the true root mean square over the n interior cells is
    at least 2^-500 the relative error is at most (2 n + 16) * 2^-53. *)
Theorem C76_norm_3d :
  forall (N : Num double) (dom : domain double) (d : disc3 double) (name : string) (rsum : double -> list double -> double)
    (st : res_stats double) (a : list double) (w : Z -> Z -> Z -> double),
  ieee N -> ieee_norm N -> valid_domain3 dom -> make3 dom = Ok d -> nx dom * ny dom * nz dom <= 2 ^ 24 ->
  (forall l, reduction nadd (nint 0) (nint 0) l (rsum (nint 0) l)) -> holds_inside3 dom a w ->
  exists st' rest v, residual_calculator rsum [name] 1 (d3_interior d) st [a] = Ok (st', (append "res_" name, v) :: rest) /\
    (finite v ->
     (forall i j k, inside3 dom i j k -> finite (w i j k)) /\
     (/ 2 ^ 500 <= true_rms3 dom w -> Rabs (value_of v - true_rms3 dom w) <= (2 * IZR (nx dom * ny dom * nz dom) + 16) * unit_roundoff * true_rms3 dom w)%R).
Proof. exact pf_C76_norm_3d. Qed.
Print Assumptions C76_norm_3d.

Example C76_norm_3d_ex :
  (valid_domain3 acc_box /\ (exists d, make3 (N := Num_double) acc_box = Ok d) /\ nx acc_box * ny acc_box * nz acc_box <= 2 ^ 24) /\
  (ieee Num_double /\ ieee_norm Num_double) /\
  (exists rsum, forall l, reduction (V := double) (nadd (Num := Num_double)) (nint (Num := Num_double) 0) (nint (Num := Num_double) 0) l (rsum (nint (Num := Num_double) 0) l)) /\
  holds_inside3 acc_box acc_c3 acc_u3 /\ (/ 2 ^ 500 <= true_rms3 acc_box acc_u3)%R.
Proof. exact (conj acc_box_ok (conj (conj double_ieee double_ieee_norm) (conj acc_sum_ok acc_field_ok3))). Qed.

(** The same in two dimensions. *)
Theorem C76_norm_2d :
  forall (N : Num double) (dom : domain double) (d : disc2 double) (name : string) (rsum : double -> list double -> double)
    (st : res_stats double) (a : list double) (w : Z -> Z -> double),
  ieee N -> ieee_norm N -> valid_domain2 dom -> make2 dom = Ok d -> nx dom * nx dom <= 2 ^ 24 ->
  (forall l, reduction nadd (nint 0) (nint 0) l (rsum (nint 0) l)) -> holds_inside2 dom a w ->
  exists st' rest v, residual_calculator rsum [name] 1 (d2_interior d) st [a] = Ok (st', (append "res_" name, v) :: rest) /\
    (finite v ->
     (forall i j, inside2 dom i j -> finite (w i j)) /\
     (/ 2 ^ 500 <= true_rms2 dom w -> Rabs (value_of v - true_rms2 dom w) <= (2 * IZR (nx dom * nx dom) + 16) * unit_roundoff * true_rms2 dom w)%R).
Proof. exact pf_C76_norm_2d. Qed.
Print Assumptions C76_norm_2d.

Example C76_norm_2d_ex :
  (valid_domain2 acc_square /\ (exists d, make2 (N := Num_double) acc_square = Ok d) /\ nx acc_square * nx acc_square <= 2 ^ 24) /\
  holds_inside2 acc_square acc_c2 acc_u2 /\ (/ 2 ^ 500 <= true_rms2 acc_square acc_u2)%R.
Proof. exact (conj acc_square_ok acc_field_ok2). Qed.

(** The right-hand side in doubles, 3D, every boundary type and every kernel variant: with interior
    values of size at most b and a cell size between 2^-250 and 2^250, every finite computed rate is
    within 31 * 2^-53 * rate_size of Lap(c^3 - c) - eps2 Lap(Lap c) - sigma (c - m) evaluated in exact
    arithmetic, with the differences of the grid, at the values of the doubles. *)
Theorem C77_rate_3d :
  forall (N : Num double) (dom : domain double) (d : disc3 double) (variant : Z) (p : ch_params double)
    (sc : scratch double) (c rhs : list double) (u : Z -> Z -> Z -> double) (b : R),
  ieee N -> valid_domain3 dom -> 2 <= nhalo dom -> nhalo dom <= nx dom /\ nhalo dom <= ny dom /\ nhalo dom <= nz dom ->
  make3 dom = Ok d -> 0 <= variant <= 2 -> scratch_fits (cells3 dom) sc -> zlen rhs = cells3 dom -> holds_inside3 dom c u ->
  (tiny <= b)%R -> (forall i j k, inside3 dom i j k -> Rabs (value_of (u i j k)) <= b)%R ->
  finite (d3_dx d) -> (/ 2 ^ 250 <= value_of (d3_dx d) <= 2 ^ 250)%R ->
  exists sc' c' rhs' r, eval_rhs3 d variant p sc c rhs = Ok (sc', c', rhs') /\ holds_inside3 dom rhs' r /\
    forall i j k, inside3 dom i j k -> finite (r i j k) ->
    let h := value_of (d3_dx d) in let m := value_of (ch_m p) in let sigma := value_of (ch_sigma p) in let eps2 := value_of (ch_eps2 p) in
    (Rabs (value_of (r i j k) - CH3 h m sigma eps2 (fun i j k => value_of (extend3 dom u i j k)) i j k)
       <= 31 * unit_roundoff * rate_size h m sigma eps2 b)%R.
Proof. exact pf_C77_rate_3d. Qed.
Print Assumptions C77_rate_3d.

Example C77_rate_3d_ex : exists d : disc3 double,
  (ieee Num_double /\ valid_domain3 acc_box /\ make3 (N := Num_double) acc_box = Ok d) /\
  (scratch_fits (cells3 acc_box) (k_sc (acc_world (cells3 acc_box) acc_c3)) /\ zlen (zeros (cells3 acc_box)) = cells3 acc_box) /\
  holds_inside3 acc_box acc_c3 acc_u3 /\
  (tiny <= 1 /\ (forall i j k, inside3 acc_box i j k -> Rabs (value_of (acc_u3 i j k)) <= 1))%R /\
  (finite (d3_dx d) /\ / 2 ^ 250 <= value_of (d3_dx d) <= 2 ^ 250)%R.
Proof. exact acc_rate3. Qed.

(** The same in two dimensions. *)
Theorem C77_rate_2d :
  forall (N : Num double) (dom : domain double) (d : disc2 double) (p : ch_params double)
    (sc : scratch double) (c rhs : list double) (u : Z -> Z -> double) (b : R),
  ieee N -> valid_domain2 dom -> 2 <= nhalo dom -> nhalo dom <= nx dom ->
  make2 dom = Ok d -> scratch_fits (cells2 dom) sc -> zlen rhs = cells2 dom -> holds_inside2 dom c u ->
  (tiny <= b)%R -> (forall i j, inside2 dom i j -> Rabs (value_of (u i j)) <= b)%R ->
  finite (d2_dx d) -> (/ 2 ^ 250 <= value_of (d2_dx d) <= 2 ^ 250)%R ->
  exists sc' c' rhs' r, eval_rhs2 d p sc c rhs = Ok (sc', c', rhs') /\ holds_inside2 dom rhs' r /\
    forall i j, inside2 dom i j -> finite (r i j) ->
    let h := value_of (d2_dx d) in let m := value_of (ch_m p) in let sigma := value_of (ch_sigma p) in let eps2 := value_of (ch_eps2 p) in
    (Rabs (value_of (r i j) - CH2 h m sigma eps2 (fun i j => value_of (periodic2 dom u i j)) i j)
       <= 31 * unit_roundoff * rate_size h m sigma eps2 b)%R.
Proof. exact pf_C77_rate_2d. Qed.
Print Assumptions C77_rate_2d.

Example C77_rate_2d_ex : exists d : disc2 double,
  (ieee Num_double /\ valid_domain2 acc_square /\ make2 (N := Num_double) acc_square = Ok d) /\
  (scratch_fits (cells2 acc_square) (k_sc (acc_world (cells2 acc_square) acc_c2)) /\ zlen (zeros (cells2 acc_square)) = cells2 acc_square) /\
  holds_inside2 acc_square acc_c2 acc_u2 /\
  (tiny <= 1 /\ (forall i j, inside2 acc_square i j -> Rabs (value_of (acc_u2 i j)) <= 1))%R /\
  (finite (d2_dx d) /\ / 2 ^ 250 <= value_of (d2_dx d) <= 2 ^ 250)%R.
Proof. exact acc_rate2. Qed.

(** The mean in doubles, RK3, 3D periodic.  In a run of steps dts in which every field handed to the
    right-hand side is bounded by b on the interior and every result is finite, with sigma >= 0 and
    sigma dt <= 1, the exact mean of the doubles leaves its target c (m, or anything if sigma = 0) by
    at most 128 * 2^-53 * (b + dt * rate_size) more per step: rounding errors add up linearly, they do
    not grow. *)
Theorem C77_mean_3d :
  forall (N : Num double) (W : Type) (dom : domain double) (d : disc3 double) (variant : Z) (p : ch_params double)
    (eval' : rhs_fun double (scratch double)) (x : rk3_world double (scratch double) W) (c0 : list double) (u0 : Z -> Z -> Z -> double)
    (t0 : double) (dts : list double) (xs : list (rk3_world double (scratch double) W)) (b c : R),
  ieee N -> valid_domain3 dom -> 2 <= nhalo dom -> nhalo dom <= nx dom /\ nhalo dom <= ny dom /\ nhalo dom <= nz dom ->
  xbc dom <> Neumann /\ ybc dom <> Neumann /\ zbc dom <> Neumann ->
  make3 dom = Ok d -> 0 <= variant <= 2 ->
  (forall k, In k [r_k1 (k_int x); r_k2 (k_int x); r_k3 (k_int x); r_stage (k_int x)] -> shaped 1 (cells3 dom) k) ->
  scratch_fits (cells3 dom) (k_sc x) -> shaped 1 (cells3 dom) (k_du x) -> k_u x = [c0] -> holds_inside3 dom c0 u0 ->
  (tiny <= b)%R -> finite (d3_dx d) -> (/ 2 ^ 250 <= value_of (d3_dx d) <= 2 ^ 250)%R ->
  let h := value_of (d3_dx d) in let m := value_of (ch_m p) in let sigma := value_of (ch_sigma p) in let eps2 := value_of (ch_eps2 p) in
  (0 <= sigma)%R -> (sigma = 0%R \/ c = m) -> Forall (fun dt => tiny <= value_of dt /\ sigma * value_of dt <= 1)%R dts ->
  restricts eval' (ch_rhs3 d variant p) (bounded3 dom b) ->
  run_steps (rk3_do eval') x t0 dts = Ok xs -> Forall (fun x' => finite3 dom (k_u x')) xs ->
  forall x', In x' xs -> exists c' u', k_u x' = [c'] /\ holds_inside3 dom c' u' /\
    (Rabs (true_mean3 dom u' - c) <= Rabs (true_mean3 dom u0 - c)
       + 128 * unit_roundoff * total (map (fun dt => b + value_of dt * rate_size h m sigma eps2 b) dts))%R.
Proof. exact pf_C77_mean_3d. Qed.
Print Assumptions C77_mean_3d.

Example C77_mean_3d_ex : exists (d : disc3 double) (xs : list (rk3_world double (scratch double) unit)),
  let x := acc_world (cells3 acc_box) acc_c3 in
  (ieee Num_double /\ valid_domain3 acc_box /\ make3 (N := Num_double) acc_box = Ok d) /\
  (2 <= nhalo acc_box /\ nhalo acc_box <= nx acc_box /\ nhalo acc_box <= ny acc_box /\ nhalo acc_box <= nz acc_box /\ xbc acc_box <> Neumann /\ ybc acc_box <> Neumann /\ zbc acc_box <> Neumann) /\
  (forall k, In k [r_k1 (k_int x); r_k2 (k_int x); r_k3 (k_int x); r_stage (k_int x)] -> shaped 1 (cells3 acc_box) k) /\
  (scratch_fits (cells3 acc_box) (k_sc x) /\ shaped 1 (cells3 acc_box) (k_du x) /\ k_u x = [acc_c3] /\ holds_inside3 acc_box acc_c3 acc_u3) /\
  (tiny <= 1 /\ finite (d3_dx d) /\ / 2 ^ 250 <= value_of (d3_dx d) <= 2 ^ 250)%R /\
  ((0 <= value_of (ch_sigma acc_params))%R /\ Forall (fun dt => tiny <= value_of dt /\ value_of (ch_sigma acc_params) * value_of dt <= 1)%R acc_dts) /\
  restricts (guarded3 d) (ch_rhs3 (N := Num_double) d 1 acc_params) (bounded3 acc_box 1) /\
  run_steps (N := Num_double) (rk3_do (N := Num_double) (guarded3 d)) x (ratio 0 1) acc_dts = Ok xs /\ Forall (fun x' => finite3 acc_box (k_u x')) xs.
Proof. exact acc_run3. Qed.

(** The same in two dimensions. *)
Theorem C77_mean_2d :
  forall (N : Num double) (W : Type) (dom : domain double) (d : disc2 double) (p : ch_params double)
    (eval' : rhs_fun double (scratch double)) (x : rk3_world double (scratch double) W) (c0 : list double) (u0 : Z -> Z -> double)
    (t0 : double) (dts : list double) (xs : list (rk3_world double (scratch double) W)) (b c : R),
  ieee N -> valid_domain2 dom -> 2 <= nhalo dom -> nhalo dom <= nx dom -> make2 dom = Ok d ->
  (forall k, In k [r_k1 (k_int x); r_k2 (k_int x); r_k3 (k_int x); r_stage (k_int x)] -> shaped 1 (cells2 dom) k) ->
  scratch_fits (cells2 dom) (k_sc x) -> shaped 1 (cells2 dom) (k_du x) -> k_u x = [c0] -> holds_inside2 dom c0 u0 ->
  (tiny <= b)%R -> finite (d2_dx d) -> (/ 2 ^ 250 <= value_of (d2_dx d) <= 2 ^ 250)%R ->
  let h := value_of (d2_dx d) in let m := value_of (ch_m p) in let sigma := value_of (ch_sigma p) in let eps2 := value_of (ch_eps2 p) in
  (0 <= sigma)%R -> (sigma = 0%R \/ c = m) -> Forall (fun dt => tiny <= value_of dt /\ sigma * value_of dt <= 1)%R dts ->
  restricts eval' (ch_rhs2 d p) (bounded2 dom b) ->
  run_steps (rk3_do eval') x t0 dts = Ok xs -> Forall (fun x' => finite2 dom (k_u x')) xs ->
  forall x', In x' xs -> exists c' u', k_u x' = [c'] /\ holds_inside2 dom c' u' /\
    (Rabs (true_mean2 dom u' - c) <= Rabs (true_mean2 dom u0 - c)
       + 128 * unit_roundoff * total (map (fun dt => b + value_of dt * rate_size h m sigma eps2 b) dts))%R.
Proof. exact pf_C77_mean_2d. Qed.
Print Assumptions C77_mean_2d.

Example C77_mean_2d_ex : exists (d : disc2 double) (xs : list (rk3_world double (scratch double) unit)),
  let x := acc_world (cells2 acc_square) acc_c2 in
  (ieee Num_double /\ valid_domain2 acc_square /\ make2 (N := Num_double) acc_square = Ok d) /\
  (2 <= nhalo acc_square /\ nhalo acc_square <= nx acc_square) /\
  (forall k, In k [r_k1 (k_int x); r_k2 (k_int x); r_k3 (k_int x); r_stage (k_int x)] -> shaped 1 (cells2 acc_square) k) /\
  (scratch_fits (cells2 acc_square) (k_sc x) /\ shaped 1 (cells2 acc_square) (k_du x) /\ k_u x = [acc_c2] /\ holds_inside2 acc_square acc_c2 acc_u2) /\
  (tiny <= 1 /\ finite (d2_dx d) /\ / 2 ^ 250 <= value_of (d2_dx d) <= 2 ^ 250)%R /\
  ((0 <= value_of (ch_sigma acc_params))%R /\ Forall (fun dt => tiny <= value_of dt /\ value_of (ch_sigma acc_params) * value_of dt <= 1)%R acc_dts) /\
  restricts (guarded2 d) (ch_rhs2 (N := Num_double) d acc_params) (bounded2 acc_square 1) /\
  run_steps (N := Num_double) (rk3_do (N := Num_double) (guarded2 d)) x (ratio 0 1) acc_dts = Ok xs /\ Forall (fun x' => finite2 acc_square (k_u x')) xs.
Proof. exact acc_run2. Qed.
