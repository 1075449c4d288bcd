(** The residual report, the solution monitors, the random initial conditions and the
    copies between a state and an external solver's vector: C58, C59, C60 and C62.

    [residual_history] feeds a sequence of residual states to the residual calculator,
    [solution_monitor3]/[solution_monitor2] is the solution monitor, [random_initial] the
    random initial condition, [copy_to_vec]/[copy_from_vec] the copies to and from the
    solver's vector.  Least, greatest, gradient and root mean square are defined in SpecMon;
    reductions are taken in any order ([sum_reducer], [proper_reducers]). *)
From Coq Require Import ZArith Reals String List.
From Verif Require Import Outcome ZList Num SpecGrid ModelDisc3D ModelDisc2D ModelCH SpecField ModelTime ModelRun SpecTime
  ExampleNum ModelMon SpecMon MonFinal.
Import ListNotations.
Local Open Scope Z_scope.
Local Open Scope list_scope.

(** The monitor reports, for every equation, the root mean square of its residual; with rms the
    one of the first equation, [rel_res] is rms over the largest rms seen so far and lies in
    [0,1]; while all residuals seen are zero both are reported as 1. *)
Theorem C58_residual_report_3d :
  forall (dom : domain R) (d : disc3 R) (names : list string) (rsum : R -> list R -> R) (hist : list (state R))
    (ws : list (nat -> Z -> Z -> Z -> R)),
  valid_domain3 dom -> make3 dom = Ok d -> sum_reducer rsum -> names <> [] ->
  Forall2 (residual_holds3 dom (length names)) hist ws ->
  exists st ms, residual_history rsum names (length names) (d3_interior d) res_stats0 hist = Ok (st, ms) /\
    length ms = length hist /\
    forall k w m, nth_error ws k = Some w -> nth_error ms k = Some m ->
    exists A Rel M : R,
      m = map (fun '(e, n) => (append "res_" n, rms3 dom (w e))) (combine (seq 0 (length names)) names)
          ++ [("abs_res"%string, A); ("rel_res"%string, Rel)] /\
      greatest_of (map (fun w => rms3 dom (w 0%nat)) (firstn (S k) ws)) M /\
      (M <> 0%R -> A = rms3 dom (w 0%nat) /\ Rel = (rms3 dom (w 0%nat) / M)%R) /\
      (M = 0%R -> A = 1%R /\ Rel = 1%R) /\ (0 <= Rel <= 1)%R.
Proof. exact pf_C58_residual_report_3d. Qed.
Print Assumptions C58_residual_report_3d.

Example C58_residual_report_3d_ex :
  (valid_domain3 ex_box /\ exists d, make3 ex_box = Ok d) /\ (sum_reducer ex_sum /\ ex_names <> []) /\
  exists hist, length hist = 2%nat /\
    Forall2 (residual_holds3 ex_box 2) hist
      [(fun e i j k => IZR (i + j + k) + INR e)%R; (fun e i j k => IZR (i * j) - INR e)%R].
Proof. exact (conj ex_box_ok (conj ex_sum_ok ex_history)). Qed.

(** The same report in two dimensions. *)
Theorem C58_residual_report_2d :
  forall (dom : domain R) (d : disc2 R) (names : list string) (rsum : R -> list R -> R) (hist : list (state R))
    (ws : list (nat -> Z -> Z -> R)),
  valid_domain2 dom -> make2 dom = Ok d -> sum_reducer rsum -> names <> [] ->
  Forall2 (residual_holds2 dom (length names)) hist ws ->
  exists st ms, residual_history rsum names (length names) (d2_interior d) res_stats0 hist = Ok (st, ms) /\
    length ms = length hist /\
    forall k w m, nth_error ws k = Some w -> nth_error ms k = Some m ->
    exists A Rel M : R,
      m = map (fun '(e, n) => (append "res_" n, rms2 dom (w e))) (combine (seq 0 (length names)) names)
          ++ [("abs_res"%string, A); ("rel_res"%string, Rel)] /\
      greatest_of (map (fun w => rms2 dom (w 0%nat)) (firstn (S k) ws)) M /\
      (M <> 0%R -> A = rms2 dom (w 0%nat) /\ Rel = (rms2 dom (w 0%nat) / M)%R) /\
      (M = 0%R -> A = 1%R /\ Rel = 1%R) /\ (0 <= Rel <= 1)%R.
Proof. exact pf_C58_residual_report_2d. Qed.
Print Assumptions C58_residual_report_2d.

Example C58_residual_report_2d_ex :
  (valid_domain2 ex_square /\ exists d, make2 ex_square = Ok d) /\ (sum_reducer ex_sum /\ ex_names <> []) /\
  exists hist, length hist = 1%nat /\
    Forall2 (residual_holds2 ex_square 2) hist [(fun e i j => IZR (i - j) + INR e)%R].
Proof. exact (conj ex_square_ok (conj ex_sum_ok ex_history2)). Qed.

(** On a cube of at least two cells per side: the reported minimum is the least interior value,
    the maximum is the greatest interior value as soon as some value is at least the smallest
    positive normal double, and the gradient magnitude is the square of the spacing times the
    sum of the lengths of the discrete gradients; halo cells have no influence. *)
Theorem C59_monitor_3d :
  forall (dom : domain R) (d : disc3 R) (red : reducers R) (f : list R) (u : Z -> Z -> Z -> R),
  valid_domain3 dom -> 2 <= nx dom -> ny dom = nx dom -> nz dom = nx dom -> make3 dom = Ok d ->
  proper_reducers red -> holds_inside3 dom f u -> (forall i j k, inside3 dom i j k -> finite_double (u i j k)) ->
  exists a b g : R,
    solution_monitor3 red DBL_MAX DBL_MIN d f = Ok [("min_c"%string, a); ("max_c"%string, b); ("grad_c_mag"%string, g)] /\
    least3 dom u a /\
    ((exists i j k, inside3 dom i j k /\ (DBL_MIN <= u i j k)%R) -> greatest3 dom u b) /\
    g = (d3_dx d ^ 2 * total3 dom (grad_length3 dom (d3_dx d) u))%R.
Proof. exact pf_C59_monitor_3d. Qed.
Print Assumptions C59_monitor_3d.

Example C59_monitor_3d_ex :
  ((valid_domain3 ex_cube /\ 2 <= nx ex_cube /\ ny ex_cube = nx ex_cube /\ nz ex_cube = nx ex_cube) /\
   (exists d, make3 ex_cube = Ok d) /\ exists f, holds3 ex_cube f (fun i j k => IZR (i + j + k))) /\
  ((forall i j k, inside3 ex_cube i j k -> finite_double (IZR (i + j + k))) /\
   exists i j k, inside3 ex_cube i j k /\ (DBL_MIN <= IZR (i + j + k))%R) /\
  proper_reducers ex_reducers.
Proof. exact (conj ex_cube_ok (conj ex_finite ex_reducers_ok)). Qed.

(** On every grid with a halo the reported minimum and maximum are right, under the same proviso. *)
Theorem C59_minmax_3d :
  forall (dom : domain R) (d : disc3 R) (red : reducers R) (f : list R) (u : Z -> Z -> Z -> R),
  valid_domain3 dom -> 1 <= nhalo dom -> make3 dom = Ok d ->
  proper_reducers red -> holds_inside3 dom f u -> (forall i j k, inside3 dom i j k -> finite_double (u i j k)) ->
  exists a b g : R,
    solution_monitor3 red DBL_MAX DBL_MIN d f = Ok [("min_c"%string, a); ("max_c"%string, b); ("grad_c_mag"%string, g)] /\
    least3 dom u a /\
    ((exists i j k, inside3 dom i j k /\ (DBL_MIN <= u i j k)%R) -> greatest3 dom u b).
Proof. exact pf_C59_minmax_3d. Qed.
Print Assumptions C59_minmax_3d.

Example C59_minmax_3d_ex :
  ((valid_domain3 ex_cube /\ 2 <= nx ex_cube /\ ny ex_cube = nx ex_cube /\ nz ex_cube = nx ex_cube) /\
   (exists d, make3 ex_cube = Ok d) /\ exists f, holds3 ex_cube f (fun i j k => IZR (i + j + k))) /\
  1 <= nhalo ex_cube.
Proof. exact (conj ex_cube_ok ex_cube_halo). Qed.

(** Two dimensions, at least two cells per side. *)
Theorem C59_monitor_2d :
  forall (dom : domain R) (d : disc2 R) (red : reducers R) (f : list R) (u : Z -> Z -> R),
  valid_domain2 dom -> 2 <= nx dom -> make2 dom = Ok d ->
  proper_reducers red -> holds_inside2 dom f u -> (forall i j, inside2 dom i j -> finite_double (u i j)) ->
  exists a b g : R,
    solution_monitor2 red DBL_MAX DBL_MIN d f = Ok [("min_c"%string, a); ("max_c"%string, b); ("grad_c_mag"%string, g)] /\
    least2 dom u a /\
    ((exists i j, inside2 dom i j /\ (DBL_MIN <= u i j)%R) -> greatest2 dom u b) /\
    g = (d2_dx d ^ 2 * total2 dom (grad_length2 dom (d2_dx d) u))%R.
Proof. exact pf_C59_monitor_2d. Qed.
Print Assumptions C59_monitor_2d.

Example C59_monitor_2d_ex : (valid_domain2 ex_square /\ exists d, make2 ex_square = Ok d) /\
  2 <= nx ex_square /\ (exists f, holds2 ex_square f (fun i j => IZR (i - j))) /\ proper_reducers ex_reducers.
Proof. exact (conj ex_square_ok (conj ex_square_two (conj ex_square_field ex_reducers_ok))). Qed.

(** The maximum is wrong for fields without a positive value: on every grid with a halo, for
    every field of negative finite values, the monitor reports the smallest positive normal
    double, which is no value of the field and above all of them. *)
Theorem C59_negative_maximum_refuted :
  forall (dom : domain R) (d : disc3 R) (red : reducers R) (f : list R) (u : Z -> Z -> Z -> R),
  valid_domain3 dom -> 1 <= nhalo dom -> make3 dom = Ok d ->
  proper_reducers red -> holds3 dom f u ->
  (forall i j k, inside3 dom i j k -> finite_double (u i j k) /\ (u i j k < 0)%R) ->
  exists a g : R,
    solution_monitor3 red DBL_MAX DBL_MIN d f = Ok [("min_c"%string, a); ("max_c"%string, DBL_MIN); ("grad_c_mag"%string, g)] /\
    ~ greatest3 dom u DBL_MIN.
Proof. exact pf_C59_negative_maximum_refuted. Qed.
Print Assumptions C59_negative_maximum_refuted.

Example C59_negative_maximum_ex :
  ((valid_domain3 ex_cube /\ 2 <= nx ex_cube /\ ny ex_cube = nx ex_cube /\ nz ex_cube = nx ex_cube) /\
   (exists d, make3 ex_cube = Ok d) /\ exists f, holds3 ex_cube f (fun i j k => IZR (i + j + k))) /\
  exists f, holds3 ex_cube f (fun i j k => (-1)%R).
Proof. exact (conj ex_cube_ok ex_negative). Qed.

(** On a box with unequal sides the gradient magnitude is not a function of the field: on 2 x 3 x 2
    cells two states with equal interiors are given different magnitudes, because halo cells are read. *)
Theorem C59_gradient_box_refuted :
  exists (dom : domain R) (d : disc3 R) (f f' : list R) (u : Z -> Z -> Z -> R),
  valid_domain3 dom /\ nx dom = 2 /\ ny dom = 3 /\ nz dom = 2 /\ make3 dom = Ok d /\
  holds_inside3 dom f u /\ holds_inside3 dom f' u /\
  forall red, proper_reducers red -> exists a b g a' b' g' : R,
    solution_monitor3 red DBL_MAX DBL_MIN d f = Ok [("min_c"%string, a); ("max_c"%string, b); ("grad_c_mag"%string, g)] /\
    solution_monitor3 red DBL_MAX DBL_MIN d f' = Ok [("min_c"%string, a'); ("max_c"%string, b'); ("grad_c_mag"%string, g')] /\
    g <> g'.
Proof. exact pf_C59_gradient_box_refuted. Qed.
Print Assumptions C59_gradient_box_refuted.

(** Whatever numbers in [lo, hi] the generator returns, the interior mean is m (in exact
    arithmetic), every cell deviates from m by at most hi - lo, twice the perturbation range
    (hi - lo) / 2, and the halo cells are left alone. *)
Theorem C60_random_3d :
  forall (dom : domain R) (d : disc3 R) (draw : nat -> R) (m lo hi : R) (c : list R),
  valid_domain3 dom -> make3 dom = Ok d -> zlen c = cells3 dom -> (forall n, (lo <= draw n <= hi)%R) ->
  exists c' w, random_initial draw m (d3_interior d) c = Ok c' /\
    holds_inside3 dom c' w /\ same_halo3 dom c c' /\ mean3 dom w = m /\
    forall i j k, inside3 dom i j k -> (Rabs (w i j k - m) <= hi - lo)%R.
Proof. exact pf_C60_random_3d. Qed.
Print Assumptions C60_random_3d.

Example C60_random_3d_ex : (valid_domain3 ex_box /\ exists d, make3 ex_box = Ok d) /\
  zlen (repeat 7%R 80) = cells3 ex_box /\ forall n, (-1 <= (if Nat.even n then 1 else - 1) <= 1)%R.
Proof. exact (conj ex_box_ok (conj eq_refl ex_draws)). Qed.

(** Two dimensions. *)
Theorem C60_random_2d :
  forall (dom : domain R) (d : disc2 R) (draw : nat -> R) (m lo hi : R) (c : list R),
  valid_domain2 dom -> make2 dom = Ok d -> zlen c = cells2 dom -> (forall n, (lo <= draw n <= hi)%R) ->
  exists c' w, random_initial draw m (d2_interior d) c = Ok c' /\
    holds_inside2 dom c' w /\ same_halo2 dom c c' /\ mean2 dom w = m /\
    forall i j, inside2 dom i j -> (Rabs (w i j - m) <= hi - lo)%R.
Proof. exact pf_C60_random_2d. Qed.
Print Assumptions C60_random_2d.

Example C60_random_2d_ex : (valid_domain2 ex_square /\ exists d, make2 ex_square = Ok d) /\
  zlen (repeat 7%R 25) = cells2 ex_square /\ forall n, (-1 <= (if Nat.even n then 1 else - 1) <= 1)%R.
Proof. exact (conj ex_square_ok (conj eq_refl ex_draws)). Qed.

(** Constant initial conditions set every interior cell to the value and no halo cell; for any
    number type. *)
Theorem C60_constant_3d :
  forall (V : Type) (N : Num V) (dom : domain V) (d : disc3 V) (value : V) (c : list V),
  valid_domain3 dom -> make3 dom = Ok d -> zlen c = cells3 dom ->
  exists c', constant_initial value (d3_interior d) c = Ok c' /\
    holds_inside3 dom c' (fun _ _ _ => value) /\ same_halo3 dom c c'.
Proof. exact pf_C60_constant_3d. Qed.
Print Assumptions C60_constant_3d.

Example C60_constant_3d_ex : (valid_domain3 ex_box /\ exists d, make3 ex_box = Ok d) /\
  zlen (repeat 7%R 80) = cells3 ex_box.
Proof. exact (conj ex_box_ok eq_refl). Qed.

(** Copying a state into the solver's vector and back, for any number type: the vector lists the
    interior row by row; copying back the vector changes nothing; a vector copied into a state
    fills exactly the interior, leaves the halo and comes back unchanged. *)
Theorem C62_copies_3d :
  forall (V : Type) (N : Num V) (dom : domain V) (d : disc3 V) (s x : list V) (u v : Z -> Z -> Z -> V),
  valid_domain3 dom -> make3 dom = Ok d -> holds3 dom s u -> vec_holds3 dom x v ->
  (exists y, copy_to_vec (d3_interior d) s x = Ok y /\ vec_holds3 dom y u /\
     copy_from_vec (d3_interior d) s y = Ok (s, y)) /\
  (exists s', copy_from_vec (d3_interior d) s x = Ok (s', x) /\ holds_inside3 dom s' v /\ same_halo3 dom s s' /\
     forall y, zlen y = zlen x -> copy_to_vec (d3_interior d) s' y = Ok x).
Proof. exact pf_C62_copies_3d. Qed.
Print Assumptions C62_copies_3d.

Example C62_copies_3d_ex : (valid_domain3 ex_box /\ exists d, make3 ex_box = Ok d) /\
  (exists s, holds3 ex_box s (fun i j k => IZR (i + j + k))) /\
  (exists x, vec_holds3 ex_box x (fun i j k => IZR (i - j + 2 * k))).
Proof. exact (conj ex_box_ok (conj ex_state3 ex_vec3)). Qed.

(** Two dimensions. *)
Theorem C62_copies_2d :
  forall (V : Type) (N : Num V) (dom : domain V) (d : disc2 V) (s x : list V) (u v : Z -> Z -> V),
  valid_domain2 dom -> make2 dom = Ok d -> holds2 dom s u -> vec_holds2 dom x v ->
  (exists y, copy_to_vec (d2_interior d) s x = Ok y /\ vec_holds2 dom y u /\
     copy_from_vec (d2_interior d) s y = Ok (s, y)) /\
  (exists s', copy_from_vec (d2_interior d) s x = Ok (s', x) /\ holds_inside2 dom s' v /\ same_halo2 dom s s' /\
     forall y, zlen y = zlen x -> copy_to_vec (d2_interior d) s' y = Ok x).
Proof. exact pf_C62_copies_2d. Qed.
Print Assumptions C62_copies_2d.

Example C62_copies_2d_ex : (valid_domain2 ex_square /\ exists d, make2 ex_square = Ok d) /\
  (exists s, holds2 ex_square s (fun i j => IZR (i - j))) /\
  (exists x, vec_holds2 ex_square x (fun i j => IZR (i - 2 * j))).
Proof. exact (conj ex_square_ok (conj ex_square_field ex_vec2)). Qed.

(** The right-hand side an external solver sees is the discrete Cahn-Hilliard operator applied to
    its own vector, whatever the integrator's states and scratch arrays contain. *)
Theorem C62_rhs_3d :
  forall (dom : domain R) (d : disc3 R) (variant : Z) (p : ch_params R) (sc : scratch R) (c r x rhs : list R)
    (v : Z -> Z -> Z -> R) (time : R),
  valid_domain3 dom -> 2 <= nhalo dom -> nhalo dom <= nx dom /\ nhalo dom <= ny dom /\ nhalo dom <= nz dom ->
  make3 dom = Ok d -> 0 <= variant <= 2 -> scratch_fits (cells3 dom) sc ->
  zlen c = cells3 dom -> zlen r = cells3 dom -> vec_holds3 dom x v -> zlen rhs = nx dom * ny dom * nz dom ->
  exists sc' c' r' rhs',
    petsc_rhs (ch_rhs3 d variant p) (d3_interior d) sc [c] [r] time x rhs = Ok (sc', [c'], [r'], rhs') /\
    scratch_fits (cells3 dom) sc' /\ zlen c' = cells3 dom /\ zlen r' = cells3 dom /\
    vec_holds3 dom rhs' (CH3 (d3_dx d) (ch_m p) (ch_sigma p) (ch_eps2 p) (extend3 dom v)).
Proof. exact pf_C62_rhs_3d. Qed.
Print Assumptions C62_rhs_3d.

Example C62_rhs_3d_ex : exists (sc : scratch R) (c r x rhs : list R), scratch_fits (cells3 ex_cube) sc /\
  zlen c = cells3 ex_cube /\ zlen r = cells3 ex_cube /\ vec_holds3 ex_cube x (fun i j k => IZR (i + j * k)) /\
  zlen rhs = nx ex_cube * ny ex_cube * nz ex_cube /\ valid_domain3 ex_cube /\ 2 <= nhalo ex_cube /\
  (nhalo ex_cube <= nx ex_cube /\ nhalo ex_cube <= ny ex_cube /\ nhalo ex_cube <= nz ex_cube) /\
  (exists d, make3 ex_cube = Ok d) /\ 0 <= 1 <= 2.
Proof. exact ex_rhs3. Qed.

(** A solve by the external solver: its initial vector lists the interior of the initial state,
    and the final state's interior is the solver's final vector. [ts_solve] is the external
    solver, which may use the right-hand side function any number of times. *)
Theorem C62_solve_3d :
  forall (V : Type) (N : Num V) (S : Type) (dom : domain V) (d : disc3 V)
    (ts_solve : S -> state V -> state V -> list V -> res (S * state V * state V * list V))
    (sc : S) (c : list V) (resid : state V) (u w : Z -> Z -> Z -> V),
  valid_domain3 dom -> make3 dom = Ok d -> holds_inside3 dom c u ->
  (forall x, vec_holds3 dom x u -> exists sc' c' resid' x', ts_solve sc [c] resid x = Ok (sc', [c'], resid', x') /\
     zlen c' = cells3 dom /\ vec_holds3 dom x' w) ->
  exists sc' c' resid', petsc_solve (d3_interior d) (nx dom * ny dom * nz dom) ts_solve sc [c] resid = Ok (sc', [c'], resid') /\
    holds_inside3 dom c' w.
Proof. exact pf_C62_solve_3d. Qed.
Print Assumptions C62_solve_3d.

Example C62_solve_3d_ex : exists c, (valid_domain3 ex_box /\ exists d, make3 ex_box = Ok d) /\
  holds_inside3 ex_box c (fun i j k => IZR (i + j + k)) /\
  (forall x, vec_holds3 ex_box x (fun i j k => IZR (i + j + k)) ->
     exists sc' c' resid' x', (fun (sc : nat) (s r : state R) (x : list R) => Ok (S sc, s, r, map (fun a => a + 1)%R x)) 0%nat [c] [] x
       = Ok (sc', [c'], resid', x') /\
     zlen c' = cells3 ex_box /\ vec_holds3 ex_box x' (fun i j k => IZR (i + j + k) + 1)%R).
Proof. exact ex_solve3. Qed.
