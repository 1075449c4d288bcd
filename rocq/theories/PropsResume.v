(** Restarting runs of doubles from solution files: C74.

    The [N] of these theorems is any arithmetic on doubles, so they hold for every compilation of
    the right-hand side that both runs share.  [in_lockstep] and [same_values3] are in SpecResume. *)
From Coq Require Import ZArith Reals String List Lra Lia SpecFloat.
From Flocq Require Import IEEE754.BinarySingleNaN.
From Verif Require Import Outcome ZList Num SpecGrid ModelDisc3D ModelDisc2D ModelCH ModelObs ModelTime ModelRun
  ModelVTK SpecVTK ModelMain SpecTime SpecRestart SpecResume ModelDouble SpecDouble DoubleFinal ResumeFinal.
Import ListNotations.
Local Open Scope string_scope.
Local Open Scope list_scope.
Local Open Scope Z_scope.

(** C74, 3D: take any run of the RK3 integrator on the Cahn-Hilliard equations in doubles, and the file
    written after any of its steps r.  Read the file into fresh arrays of any contents, on a grid
    with the same cells, spacing and boundary types, and start a run from it with any options (such
    as a later final time or a larger step limit).  The new run starts at the step number of r, at
    a time that differs from the time reached by r by at most 5.1e-7 of it and, if the step size is a
    decimal number of at most seven digits, with the same step size; and for as long as the two runs make
    steps of the same sizes, they have the same step numbers and the same doubles in every interior
    cell, bit for bit. *)
Theorem C74_resume_3d :
  forall (N : Num double) (W L : Type)
    (monitor monitor' : rk3_world double (scratch double) W -> list (String.string * double))
    (call call' : L -> Z -> double -> double -> rk3_world double (scratch double) W -> res (rk3_world double (scratch double) W))
    (fuel fuel' : nat) (o o2 : time_options double) (obs obs' : observable L)
    (dom dom' raw : domain double) (d d' : disc3 double) (variant : Z) (p : ch_params double)
    (x y : rk3_world double (scratch double) W) (cy : list double) rs1 r rs2 gf,
  leaves_solver_alone call -> leaves_solver_alone call' ->
  valid_domain3 dom -> 2 <= nhalo dom -> nhalo dom <= nx dom /\ nhalo dom <= ny dom /\ nhalo dom <= nz dom ->
  make3 dom = Ok d -> 0 <= variant <= 2 -> allocated (cells3 dom) x -> 0 <= t_initial_step o ->
  solve (rk3_do (ch_rhs3 d variant p)) rk3_next_dt monitor call fuel o obs x = Some (Ok (rs1 ++ r :: rs2, gf)) ->
  let a := s_after r in
  is_finite (g_time a) = true -> (powerRZ 10 (-300) <= Rabs (value_of (g_time a)) <= powerRZ 10 300)%R ->
  short_decimal (g_dt a) ->
  nx dom <= 2147483647 -> ny dom <= 2147483647 -> nz dom <= 2147483647 ->
  nx dom' = nx dom -> ny dom' = ny dom -> nz dom' = nz dom -> nhalo dom' = nhalo dom ->
  xbc dom' = xbc dom -> ybc dom' = ybc dom -> zbc dom' = zbc dom -> make3 dom' = Ok d' -> d3_dx d' = d3_dx d ->
  allocated (cells3 dom) y -> k_u y = [cy] ->
  exists c doc o' cy',
    k_u (g_world a) = [c] /\ write3 show_value show_time (status_of a) d c = Ok doc /\
    time_options_for read_double o2 (Some doc) = Ok o' /\
    is_finite (t_t0 o') = true /\
    (Rabs (value_of (t_t0 o') - value_of (g_time a)) <= 51 / 100000000 * Rabs (value_of (g_time a)))%R /\
    t_dt_initial o' = g_dt a /\ t_initial_step o' = g_iter a /\
    set_solution read_double doc raw (Target3 d' cy) = Ok (Target3 d' cy') /\
    forall rs' gf',
     solve (rk3_do (ch_rhs3 d' variant p)) rk3_next_dt monitor' call' fuel' o' obs'
       {| k_int := k_int y; k_sc := k_sc y; k_u := [cy']; k_du := k_du y; k_rest := k_rest y |} = Some (Ok (rs', gf')) ->
     in_lockstep (same_values3 dom) rs2 rs'.
Proof. exact pf_C74_resume_3d. Qed.
Print Assumptions C74_resume_3d.

(** C74, 2D: take any run of the RK3 integrator on the Cahn-Hilliard equations in doubles, and the file
    written after any of its steps r.  Read the file into fresh arrays of any contents, on a grid
    with the same cells, spacing and boundary types, and start a run from it with any options (such
    as a later final time or a larger step limit).  The new run starts at the step number of r, at
    a time that differs from the time reached by r by at most 5.1e-7 of it and, if the step size is a
    decimal number of at most seven digits, with the same step size; and for as long as the two runs make
    steps of the same sizes, they have the same step numbers and the same doubles in every interior
    cell, bit for bit. *)
Theorem C74_resume_2d :
  forall (N : Num double) (W L : Type)
    (monitor monitor' : rk3_world double (scratch double) W -> list (String.string * double))
    (call call' : L -> Z -> double -> double -> rk3_world double (scratch double) W -> res (rk3_world double (scratch double) W))
    (fuel fuel' : nat) (o o2 : time_options double) (obs obs' : observable L)
    (dom dom' raw : domain double) (d d' : disc2 double) (p : ch_params double)
    (x y : rk3_world double (scratch double) W) (cy : list double) rs1 r rs2 gf,
  leaves_solver_alone call -> leaves_solver_alone call' ->
  valid_domain2 dom -> 2 <= nhalo dom -> nhalo dom <= nx dom ->
  make2 dom = Ok d -> allocated (cells2 dom) x -> 0 <= t_initial_step o ->
  solve (rk3_do (ch_rhs2 d p)) rk3_next_dt monitor call fuel o obs x = Some (Ok (rs1 ++ r :: rs2, gf)) ->
  let a := s_after r in
  is_finite (g_time a) = true -> (powerRZ 10 (-300) <= Rabs (value_of (g_time a)) <= powerRZ 10 300)%R ->
  short_decimal (g_dt a) ->
  nx dom <= 2147483647 ->
  nx dom' = nx dom -> nhalo dom' = nhalo dom -> make2 dom' = Ok d' -> d2_dx d' = d2_dx d ->
  allocated (cells2 dom) y -> k_u y = [cy] ->
  exists c doc o' cy',
    k_u (g_world a) = [c] /\ write2 show_value show_time (status_of a) d c = Ok doc /\
    time_options_for read_double o2 (Some doc) = Ok o' /\
    is_finite (t_t0 o') = true /\
    (Rabs (value_of (t_t0 o') - value_of (g_time a)) <= 51 / 100000000 * Rabs (value_of (g_time a)))%R /\
    t_dt_initial o' = g_dt a /\ t_initial_step o' = g_iter a /\
    set_solution read_double doc raw (Target2 d' cy) = Ok (Target2 d' cy') /\
    forall rs' gf',
     solve (rk3_do (ch_rhs2 d' p)) rk3_next_dt monitor' call' fuel' o' obs'
       {| k_int := k_int y; k_sc := k_sc y; k_u := [cy']; k_du := k_du y; k_rest := k_rest y |} = Some (Ok (rs', gf')) ->
     in_lockstep (same_values2 dom) rs2 rs'.
Proof. exact pf_C74_resume_2d. Qed.
Print Assumptions C74_resume_2d.

Example C74_ex : ex_restart (make2 (N := Num_double) ex_sq) ex_run =
  Some (S754_finite false 5404319552844596 (-54), S754_finite false 7205759403792794 (-56),
    [("3.0000000000000004e-01", "1.0000000000000001e-01", 4, Some "4.9509503098056740e-01");
     ("4.0000000000000002e-01", "1.0000000000000001e-01", 5, Some "4.9944978539266144e-01")],
    [("2.9999999999999999e-01", "1.0000000000000001e-01", 4, Some "4.9509503098056740e-01");
     ("4.0000000000000002e-01", "1.0000000000000001e-01", 5, Some "4.9944978539266144e-01")]).
Proof. exact ex_restart_is. Qed.

Example C74_hypotheses_ex : exists d rs1 r rs2 gf,
  make2 (N := Num_double) ex_sq = Ok d /\ ex_run d (ex_opt 5) ex_start = Some (Ok (rs1 ++ r :: rs2, gf)) /\
  is_finite (g_time (s_after r)) = true /\
  (powerRZ 10 (-300) <= Rabs (value_of (g_time (s_after r))) <= powerRZ 10 300)%R /\
  short_decimal (g_dt (s_after r)) /\ List.length rs2 = 2%nat /\ allocated (cells2 ex_sq) (ex_wd ex_start).
Proof.
  destruct (ex_invert _ _ _ _ ex_restart_is) as (d & rs1 & r & rs2 & gf & A & B & C & D & E & F).
  exists d, rs1, r, rs2, gf. repeat (split; [assumption|]). exact ex_alloc.
Qed.

(** C74 without the condition on the step sizes is false: a run of the equations with steps of 1.1 to the
    final time 9.9 makes three steps after its seventh (the last one tiny, because the time reached
    after nine steps is a little less than 9.9 in doubles); the run restarted from the file written after
    the seventh, with the same options, makes two, because the file holds the time 7.7. *)
Theorem C74_steps_refuted :
  exists (dom : domain double) (d d2 : disc2 double) (p : ch_params double) (o o' : time_options double)
    (x : rk3_world double (scratch double) unit) (c c0 cy' : list double) (doc : list xml) rs1 r rs2 gf rs' gf',
  let run := solve (N := Num_double) (rk3_do (N := Num_double) (ch_rhs2 (N := Num_double) d p)) rk3_next_dt (fun _ => [])
               (fun (l : unit) _ _ _ y => Ok y) 20 in
  make2 (N := Num_double) dom = Ok d /\ k_u x = [c0] /\
  run o new_observable x = Some (Ok (rs1 ++ r :: rs2, gf)) /\
  k_u (g_world (s_after r)) = [c] /\ write2 show_value show_time (status_of (s_after r)) d c = Ok doc /\
  ngeb (N := Num_double) (nadd (Num := Num_double) (g_time (s_after r)) (g_dt (s_after r))) (t_tfinal o) = false /\
  time_options_for read_double o (Some doc) = Ok o' /\
  set_solution (N := Num_double) read_double doc dom (Target2 d c0) = Ok (Target2 d2 cy') /\
  run o' new_observable {| k_int := k_int x; k_sc := k_sc x; k_u := [cy']; k_du := k_du x; k_rest := k_rest x |} = Some (Ok (rs', gf')) /\
  List.length rs2 = 3%nat /\ List.length rs' = 2%nat.
Proof. exact pf_C74_steps_refuted. Qed.
Print Assumptions C74_steps_refuted.

(** A restart after the last full step does not meet the final time as the first run did: a run with steps
    of 0.7 to the final time 2.5 ends with one shorter step; the run restarted from the file
    written before it makes a full step beyond the final time and then a step of negative size. *)
Theorem C74_last_step_refuted :
  exists (dom : domain double) (d d2 : disc2 double) (p : ch_params double) (o o' : time_options double)
    (x : rk3_world double (scratch double) unit) (c c0 cy' : list double) (doc : list xml) rs1 r q gf q1 q2 gf',
  let run := solve (N := Num_double) (rk3_do (N := Num_double) (ch_rhs2 (N := Num_double) d p)) rk3_next_dt (fun _ => [])
               (fun (l : unit) _ _ _ y => Ok y) 20 in
  make2 (N := Num_double) dom = Ok d /\ k_u x = [c0] /\
  run o new_observable x = Some (Ok (rs1 ++ [r; q], gf)) /\
  k_u (g_world (s_after r)) = [c] /\ write2 show_value show_time (status_of (s_after r)) d c = Ok doc /\
  time_options_for read_double o (Some doc) = Ok o' /\
  set_solution (N := Num_double) read_double doc dom (Target2 d c0) = Ok (Target2 d2 cy') /\
  run o' new_observable {| k_int := k_int x; k_sc := k_sc x; k_u := [cy']; k_du := k_du x; k_rest := k_rest x |} = Some (Ok ([q1; q2], gf')) /\
  nltb (Num := Num_double) (t_tfinal o) (g_time (s_after q1)) = true /\
  nltb (Num := Num_double) (s_dt q2) (nint (Num := Num_double) 0) = true.
Proof. exact pf_C74_last_step_refuted. Qed.
Print Assumptions C74_last_step_refuted.
