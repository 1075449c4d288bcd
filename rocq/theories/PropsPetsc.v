(** The callbacks given to the PETSc time steppers: C71.

    [petsc_run] is the solve function of the PETSc integrators with TSSolve replaced by an
    arbitrary program [ts] that calls the registered functions ([ts_prog]); [ideal_ts] runs the
    same program against an ideal right-hand side and Jacobian (SpecPetsc). *)
From Coq Require Import ZArith Reals String Lra List.
From Verif Require Import Outcome ZList Num SpecGrid ModelDisc3D ModelDisc2D ModelCH SpecField ModelTime ModelRun SpecTime ModelObs
  ModelCSR SpecMatrix ModelJac SpecJac ExampleNum JacFinal ModelMon SpecMon ModelPetsc SpecPetsc PetscFinal.
Import ListNotations.
Local Open Scope list_scope.
Local Open Scope Z_scope.

(** In any arithmetic: there are functions F and G, determined by the grid and the parameters
    alone, such that every time stepper behaves as if right-hand sides were F and Jacobians
    G; nothing depends on what scratch arrays, halo cells, residuals or matrix contained
    before. *)
Theorem C71_solver_3d :
  forall (V : Type) (N : Num V) (dom : domain V) (d : disc3 V) (variant : Z) (p : ch_params V) (A : csr V),
  valid_domain3 dom -> 2 <= nhalo dom -> nhalo dom <= nx dom /\ nhalo dom <= ny dom /\ nhalo dom <= nz dom ->
  make3 dom = Ok d -> 0 <= variant <= 2 ->
  exists F G, solves_like3 dom d variant p A F G.
Proof. exact pf_C71_solver_3d. Qed.
Print Assumptions C71_solver_3d.
Theorem C71_solver_2d :
  forall (V : Type) (N : Num V) (dom : domain V) (d : disc2 V) (p : ch_params V),
  valid_domain2 dom -> 2 <= nhalo dom -> nhalo dom <= nx dom -> make2 dom = Ok d ->
  exists F, solves_like2 dom d p F.
Proof. exact pf_C71_solver_2d. Qed.
Print Assumptions C71_solver_2d.

(** A 5 by 6 by 7 grid and a 5 by 5 grid: one step of Euler's method that asks for the Jacobian,
    with an observer that records one cell, meets the conditions in [solves_like3] and
    [solves_like2]. *)
Example C71_solver_3d_ex : exists d A c r x y (sc : scratch R), let dom := ex_box0 Periodic in
  make3 dom = Ok d /\ create_matrix d = Ok A /\ same_cells3 dom c x /\ same_cells3 dom r y /\ scratch_fits (cells3 dom) sc /\
  holds_inside3 dom c (fun i j k => IZR (i + 2 * j + 3 * k)) /\
  reads_cells3 dom (ex_obs3 dom) (ex_obs3' dom) /\
  ts_fits (nx dom * ny dom * nz dom) (zlen (m_vals A)) (create_matrix d = Ok A) None (ex_ts3 dom A (1 / 1000) x) /\
  linear_method x [] (ex_ts3 dom A (1 / 1000) x).
Proof. exact ex_petsc3. Qed.
Example C71_solver_2d_ex : exists d c r x y (sc : scratch R), let dom := ex_square5 in
  valid_domain2 dom /\ 2 <= nhalo dom /\ nhalo dom <= nx dom /\
  make2 dom = Ok d /\ same_cells2 dom c x /\ same_cells2 dom r y /\ scratch_fits (cells2 dom) sc /\
  holds_inside2 dom c (fun i j => IZR (i - 3 * j)) /\
  reads_cells2 dom (ex_obs2 dom) (ex_obs2' dom) /\
  ts_fits (nx dom * nx dom) 0 False None (ex_ts2 (1 / 1000) x) /\
  linear_method x [] (ex_ts2 (1 / 1000) x).
Proof. exact ex_petsc2. Qed.

(** There is no Jacobian in two dimensions: every time stepper that asks for one before its first step is complete ends the program
    with a fatal error, whatever the state. *)
Theorem C71_jacobian_2d :
  forall (V : Type) (N : Num V) (dom : domain V) (d : disc2 V) (p : ch_params V) (O : Type)
    (notify : event -> Z -> V -> V -> state V -> state V -> O -> res O) (mon : O -> list (string * V)) (abs_tol rel_tol : V)
    (sc : scratch V) (c r x y : list V) (A : csr V) (o : O) (ts : list V -> ts_prog V),
  valid_domain2 dom -> 2 <= nhalo dom -> nhalo dom <= nx dom -> make2 dom = Ok d ->
  scratch_fits (cells2 dom) sc -> same_cells2 dom c x -> same_cells2 dom r y -> asks_jacobian (nx dom * nx dom) (ts x) ->
  petsc_run (deps2 d p notify mon abs_tol rel_tol) (nx dom * nx dom) ts
    {| pw_sc := sc; pw_sol := [c]; pw_res := [r]; pw_jac := A; pw_obs := o |} = Fatal.
Proof. exact pf_C71_jacobian_2d. Qed.
Print Assumptions C71_jacobian_2d.

(** The step of an implicit method, which asks for the right-hand side and then for the Jacobian. *)
Example C71_jacobian_2d_ex : exists d c x (sc : scratch R), let dom := ex_square5 in
  make2 dom = Ok d /\ scratch_fits (cells2 dom) sc /\ same_cells2 dom c x /\ holds_inside2 dom c (fun i j => IZR (i - 3 * j)) /\
  asks_jacobian (nx dom * nx dom) (TsPre (TsRhs 0%R x x (fun y => TsJac 0%R x [] (fun _ => TsDone y)))).
Proof. exact ex_asks2. Qed.

(** In exact arithmetic: every time stepper behaves as against an ideal program whose
    right-hand side is the discrete Cahn-Hilliard operator with the boundary conditions of
    the grid and, on a triply periodic grid, whose matrix of values G is the derivative of
    that right-hand side. *)
Theorem C71_equation_3d :
  forall (dom : domain R) (d : disc3 R) (variant : Z) (p : ch_params R) (A : csr R),
  valid_domain3 dom -> 2 <= nhalo dom -> nhalo dom <= nx dom /\ nhalo dom <= ny dom /\ nhalo dom <= nz dom ->
  make3 dom = Ok d -> 0 <= variant <= 2 ->
  exists F G, solves_like3 dom d variant p A F G /\
    (forall t x v, vec_holds3 dom x v ->
       vec_holds3 dom (F t x) (CH3 (d3_dx d) (ch_m p) (ch_sigma p) (ch_eps2 p) (extend3 dom v))) /\
    (xbc dom = Periodic -> ybc dom = Periodic -> zbc dom = Periodic -> create_matrix d = Ok A ->
     forall t x row col y, zlen x = nx dom * ny dom * nz dom -> 0 <= row < zlen x -> zget x col = Some y ->
     exists f : R -> R, (forall s x', zset x col s = Some x' -> zget (F t x') row = Some (f s)) /\
       derivable_pt_lim f y (dense (set_values A (G x)) row col)).
Proof. exact pf_C71_equation_3d. Qed.
Print Assumptions C71_equation_3d.
Theorem C71_equation_2d :
  forall (dom : domain R) (d : disc2 R) (p : ch_params R),
  valid_domain2 dom -> 2 <= nhalo dom -> nhalo dom <= nx dom -> make2 dom = Ok d ->
  exists F, solves_like2 dom d p F /\
    (forall t x v, vec_holds2 dom x v ->
       vec_holds2 dom (F t x) (CH2 (d2_dx d) (ch_m p) (ch_sigma p) (ch_eps2 p) (periodic2 dom v))).
Proof. exact pf_C71_equation_2d. Qed.
Print Assumptions C71_equation_2d.

(** The 5 by 6 by 7 grid meets the conditions, also those for the Jacobian. *)
Example C71_equation_3d_ex : let dom := ex_box0 Periodic in
  valid_domain3 dom /\ 2 <= nhalo dom /\ (nhalo dom <= nx dom /\ nhalo dom <= ny dom /\ nhalo dom <= nz dom) /\
  xbc dom = Periodic /\ ybc dom = Periodic /\ zbc dom = Periodic /\ xbeg dom <> xend dom /\
  exists d A, make3 dom = Ok d /\ create_matrix d = Ok A.
Proof.
  destruct (ex_box_facts Periodic) as (A & _ & B & C & D & E & F & d & sc & M & f & G & _ & H & _).
  repeat split; auto; try apply A. exists d, M. auto.
Qed.

(** The condition on Jacobian requests is needed.  On every triply periodic grid with five
    cells per direction there are two vectors such that a Jacobian requested for the second
    right after a right-hand side for the first is not the derivative of the right-hand side
    at the second: the Jacobian function does not fill the halo cells. *)
Theorem C71_jacobian_elsewhere_refuted :
  forall (dom : domain R) (d : disc3 R) (variant : Z) (p : ch_params R) (A : csr R) (F : R -> list R -> list R),
  valid_domain3 dom -> 2 <= nhalo dom -> nhalo dom <= nx dom /\ nhalo dom <= ny dom /\ nhalo dom <= nz dom ->
  make3 dom = Ok d -> 0 <= variant <= 2 -> xbc dom = Periodic -> ybc dom = Periodic -> zbc dom = Periodic ->
  xbeg dom <> xend dom -> create_matrix d = Ok A ->
  (forall t x v, vec_holds3 dom x v ->
     vec_holds3 dom (F t x) (CH3 (d3_dx d) (ch_m p) (ch_sigma p) (ch_eps2 p) (extend3 dom v))) ->
  exists x1 x2 row col, zlen x1 = nx dom * ny dom * nz dom /\ zlen x2 = nx dom * ny dom * nz dom /\
  forall (O : Type) notify mon abs_tol rel_tol sc c r x y (o : O) t out vals,
  scratch_fits (cells3 dom) sc -> same_cells3 dom c x -> same_cells3 dom r y ->
  zlen out = nx dom * ny dom * nz dom -> zlen vals = zlen (m_vals A) ->
  exists w a f l,
    run_ts (deps3 d variant p notify mon abs_tol rel_tol)
      (TsRhs t x1 out (fun _ => TsJac t x2 vals (fun a => TsDone a)))
      {| pw_sc := sc; pw_sol := [c]; pw_res := [r]; pw_jac := A; pw_obs := o |} = Ok (w, a) /\
    (forall s x', zset x2 col s = Some x' -> zget (F t x') row = Some (f s)) /\
    zget x2 col = Some 0%R /\ derivable_pt_lim f 0 l /\ dense (set_values A a) row col <> l.
Proof. exact pf_C71_jacobian_elsewhere_refuted. Qed.
Print Assumptions C71_jacobian_elsewhere_refuted.

(** The observers are not shown the vector the monitor is called with.  After a right-hand
    side for x1, monitoring any other vector v shows every observer x1. *)
Theorem C71_monitored_vector_refuted :
  forall (V : Type) (N : Num V) (dom : domain V) (d : disc3 V) (variant : Z) (p : ch_params V) (A : csr V) mon abs_tol rel_tol
    sc c r x y t x1 out v step time dt,
  valid_domain3 dom -> 2 <= nhalo dom -> nhalo dom <= nx dom /\ nhalo dom <= ny dom /\ nhalo dom <= nz dom ->
  make3 dom = Ok d -> 0 <= variant <= 2 -> scratch_fits (cells3 dom) sc -> same_cells3 dom c x -> same_cells3 dom r y ->
  zlen x1 = nx dom * ny dom * nz dom -> zlen out = zlen x1 -> v <> x1 ->
  let record := fun (e : event) (_ : Z) (_ _ : V) (sol _ : state V) (o : list (event * state V)) => Ok (o ++ [(e, sol)]) in
  exists w c', run_ts (deps3 d variant p record mon abs_tol rel_tol)
      (TsRhs t x1 out (fun _ => TsMon step time dt v (TsDone v)))
      {| pw_sc := sc; pw_sol := [c]; pw_res := [r]; pw_jac := A; pw_obs := [] |} = Ok (w, v) /\
    pw_obs w = [(TimeStepComplete, [c']); (SolutionUpdate, [c'])] /\
    same_cells3 dom c' x1 /\ ~ same_cells3 dom c' v.
Proof. exact pf_C71_monitored_vector_refuted. Qed.
Print Assumptions C71_monitored_vector_refuted.

(** After a report (entries for the equations, then abs_res and rel_res, as in C58) the
    post-step function asks PETSc to stop exactly when a tolerance is not zero and the
    reported value is at most the tolerance.  Without a report it aborts if a tolerance is
    set. *)
Theorem C71_stop_rule :
  forall (l : list (string * R)) (A B abs_tol rel_tol : R),
  (exists b, petsc_post_step abs_tol rel_tol
       (map (fun e => (append "res_" (fst e), snd e)) l ++ [("abs_res"%string, A); ("rel_res"%string, B)]) = Ok b /\
     (b = true <-> (abs_tol <> 0 /\ A <= abs_tol)%R \/ (rel_tol <> 0 /\ B <= rel_tol)%R)) /\
  ((abs_tol <> 0 \/ rel_tol <> 0)%R -> petsc_post_step abs_tol rel_tol [] = Fatal) /\
  petsc_post_step 0%R 0%R [] = Ok false.
Proof. exact pf_C71_stop_rule. Qed.
Print Assumptions C71_stop_rule.

(** One equation with residual 3/100, the largest so far 2: the absolute tolerance 1/10 is met,
    the relative tolerance 1/1000 is not. *)
Example C71_stop_rule_ex : (((1 / 10 <> 0) /\ 3 / 100 <= 1 / 10) /\ ~ (3 / 100 / 2 <= 1 / 1000))%R.
Proof. split; [split|]; lra. Qed.

(** The built-in integrators and the PETSc integrators do not stop by the same rule.  With an
    absolute tolerance below 1 and residuals that are zero from the start, the report (C58)
    makes the built-in rule stop and the PETSc rule continue; with a residual equal to the
    tolerance it is the other way round. *)
Theorem C71_same_rule_refuted :
  forall (o : time_options R) (tol : R), (0 < tol < 1)%R -> t_abs_tol o = tol ->
  (abs_converged o [("res_c"%string, 0%R); ("abs_res"%string, 1%R); ("rel_res"%string, 1%R)] = Ok true /\
   petsc_post_step tol 0%R [("res_c"%string, 0%R); ("abs_res"%string, 1%R); ("rel_res"%string, 1%R)] = Ok false) /\
  (abs_converged o [("res_c"%string, tol); ("abs_res"%string, tol); ("rel_res"%string, 1%R)] = Ok false /\
   petsc_post_step tol 0%R [("res_c"%string, tol); ("abs_res"%string, tol); ("rel_res"%string, 1%R)] = Ok true).
Proof. exact pf_C71_same_rule_refuted. Qed.
Print Assumptions C71_same_rule_refuted.

(** Such options exist for every tolerance. *)
Example C71_same_rule_ex : exists o : time_options R, t_abs_tol o = (1 / 10)%R /\ (0 < 1 / 10 < 1)%R.
Proof.
  exists {| t_t0 := 0%R; t_tfinal := 1%R; t_dt_initial := (1 / 100)%R; t_use_cfl := false; t_max_steps := 10;
    t_initial_step := 0; t_rel_tol := 0%R; t_abs_tol := (1 / 10)%R |}. split; [reflexivity|lra].
Qed.

(** Every linear method conserves the mean exactly when sigma is zero and the grid is
    triply periodic: if the run ends normally, the solution state has the total it started
    with. *)
Theorem C71_mass_3d :
  forall (dom : domain R) (d : disc3 R) (variant : Z) (p : ch_params R) (A : csr R),
  valid_domain3 dom -> 2 <= nhalo dom -> nhalo dom <= nx dom /\ nhalo dom <= ny dom /\ nhalo dom <= nz dom ->
  make3 dom = Ok d -> 0 <= variant <= 2 -> xbc dom = Periodic -> ybc dom = Periodic -> zbc dom = Periodic ->
  ch_sigma p = 0%R ->
  forall (O : Type) notify notify' mon abs_tol rel_tol sc c r x y (o : O) ts u w,
  reads_cells3 dom notify notify' -> scratch_fits (cells3 dom) sc -> same_cells3 dom c x -> same_cells3 dom r y ->
  ts_fits (nx dom * ny dom * nz dom) (zlen (m_vals A)) (create_matrix d = Ok A) None (ts x) ->
  linear_method x [] (ts x) -> holds_inside3 dom c u ->
  petsc_run (deps3 d variant p notify mon abs_tol rel_tol) (nx dom * ny dom * nz dom) ts
    {| pw_sc := sc; pw_sol := [c]; pw_res := [r]; pw_jac := A; pw_obs := o |} = Ok w ->
  exists c' u', pw_sol w = [c'] /\ holds_inside3 dom c' u' /\ total3 dom u' = total3 dom u.
Proof. exact pf_C71_mass_3d. Qed.
Print Assumptions C71_mass_3d.
Theorem C71_mass_2d :
  forall (dom : domain R) (d : disc2 R) (p : ch_params R),
  valid_domain2 dom -> 2 <= nhalo dom -> nhalo dom <= nx dom -> make2 dom = Ok d -> ch_sigma p = 0%R ->
  forall (O : Type) notify notify' mon abs_tol rel_tol sc c r x y A (o : O) ts u w,
  reads_cells2 dom notify notify' -> scratch_fits (cells2 dom) sc -> same_cells2 dom c x -> same_cells2 dom r y ->
  ts_fits (nx dom * nx dom) 0 False None (ts x) -> linear_method x [] (ts x) -> holds_inside2 dom c u ->
  petsc_run (deps2 d p notify mon abs_tol rel_tol) (nx dom * nx dom) ts
    {| pw_sc := sc; pw_sol := [c]; pw_res := [r]; pw_jac := A; pw_obs := o |} = Ok w ->
  exists c' u', pw_sol w = [c'] /\ holds_inside2 dom c' u' /\ total2 dom u' = total2 dom u.
Proof. exact pf_C71_mass_2d. Qed.
Print Assumptions C71_mass_2d.
