(** The explicit integrators: C17, C48, C49 and C13 for their loops.

    [rk3_do]/[ode23_do] are one time step of the RK3SSP and ODE23 integrators on a world that
    holds the integrator's arrays, the right-hand side's storage and the solution;
    [run_steps] takes steps of arbitrary sizes; [solve] is the program's time loop.
    [computes eval ok nv size P f] (SpecTime.v) says that the right-hand side object
    implements the function f on the cells P; C49_ch_ex shows that the Cahn-Hilliard
    equations do so on the interior. *)
From Coq Require Import ZArith QArith List Reals.
From Coq Require String.
From Verif Require Import Outcome ZList Num Kernel SpecGrid ModelDisc3D ModelDisc2D ModelCH SpecField ModelReduce SpecMatrix
  ModelObs ModelTime ModelRun SpecTime ExampleNum StepFinal.
Import ListNotations.
Local Open Scope Z_scope.
Local Open Scope list_scope.

(** C13, vector updates of the integrators: on arrays of one size, the stage, slope, update
    and copy loops are independent of the schedule. *)
Theorem C13_vector_updates :
  forall (V : Type) (N : Num V) (size : Z) (a b c d : list V) (dt p q r : V),
  zlen a = size -> zlen b = size -> zlen c = size -> zlen d = size ->
  let cells := zrange 0 size in
  (exists m', schedule_independent (map (stage1_body dt p) cells) [a; b; c] m') /\
  (exists m', schedule_independent (map (stage2_body dt p q) cells) [a; b; c; d] m') /\
  (exists m', schedule_independent (map (residual_body p q r) cells) [a; b; c; d] m') /\
  (exists m', schedule_independent (map (update_body dt) cells) [a; b] m') /\
  (exists m', schedule_independent (map copy_body cells) [a; b] m').
Proof. exact pf_C13_vector_updates. Qed.
Print Assumptions C13_vector_updates.

Example C13_vector_ex :
  forall_loop (V:=Q) 0 3 (stage1_body (N:=Num_Q) (1 # 2) 1)%Q [[0; 0; 0]; [1; 2; 3]; [2; 4; 8]]%Q
  = Ok [[2; 4; 7]; [1; 2; 3]; [2; 4; 8]]%Q.
Proof. vm_compute. reflexivity. Qed.

(** C17 (exact arithmetic), RK3, 3D periodic: from any state whose mean is m, or with sigma = 0,
    after any number of steps of any sizes, from any time and whatever the other arrays and
    halo cells contain, the mean over the interior is still that of the initial state. *)
Theorem C17_rk3_3d :
  forall (W : Type) (dom : domain R) (d : disc3 R) (variant : Z) (p : ch_params R)
    (x : rk3_world R (scratch R) W) (c0 : list R) (u0 : Z -> Z -> Z -> R) (t0 : R) (dts : list R),
  valid_domain3 dom -> 2 <= nhalo dom -> nhalo dom <= nx dom /\ nhalo dom <= ny dom /\ nhalo dom <= nz dom ->
  xbc dom <> Neumann /\ ybc dom <> Neumann /\ zbc dom <> Neumann ->
  make3 dom = Ok d -> 0 <= variant <= 2 ->
  (forall k, In k [r_k1 (k_int x); r_k2 (k_int x); r_k3 (k_int x); r_stage (k_int x)] -> shaped 1 (cells3 dom) k) ->
  scratch_fits (cells3 dom) (k_sc x) -> shaped 1 (cells3 dom) (k_du x) ->
  k_u x = [c0] -> holds_inside3 dom c0 u0 -> (ch_sigma p = 0%R \/ mean3 dom u0 = ch_m p) ->
  exists xs, run_steps (rk3_do (ch_rhs3 d variant p)) x t0 dts = Ok xs /\ length xs = length dts /\
    forall x', In x' xs -> exists c' u', k_u x' = [c'] /\ holds_inside3 dom c' u' /\ mean3 dom u' = mean3 dom u0.
Proof. exact pf_C17_rk3_3d. Qed.
Print Assumptions C17_rk3_3d.

(** C17, adaptive RK2(3), 3D periodic. *)
Theorem C17_ode23_3d :
  forall (W : Type) (rmax : R -> list R -> R) (dom : domain R) (d : disc3 R) (variant : Z) (p : ch_params R)
    (x : ode23_world R (scratch R) W) (c0 : list R) (u0 : Z -> Z -> Z -> R) (t0 : R) (dts : list R),
  valid_domain3 dom -> 2 <= nhalo dom -> nhalo dom <= nx dom /\ nhalo dom <= ny dom /\ nhalo dom <= nz dom ->
  xbc dom <> Neumann /\ ybc dom <> Neumann /\ zbc dom <> Neumann ->
  make3 dom = Ok d -> 0 <= variant <= 2 ->
  (forall k, In k [o_k1 (e_int x); o_k2 (e_int x); o_k3 (e_int x); o_k4 (e_int x); o_stage (e_int x)] ->
     shaped 1 (cells3 dom) k) ->
  o_first (e_int x) = true ->
  scratch_fits (cells3 dom) (e_sc x) -> shaped 1 (cells3 dom) (e_du x) ->
  e_u x = [c0] -> holds_inside3 dom c0 u0 -> (ch_sigma p = 0%R \/ mean3 dom u0 = ch_m p) ->
  exists xs, run_steps (ode23_do rmax (ch_rhs3 d variant p)) x t0 dts = Ok xs /\ length xs = length dts /\
    forall x', In x' xs -> exists c' u', e_u x' = [c'] /\ holds_inside3 dom c' u' /\ mean3 dom u' = mean3 dom u0.
Proof. exact pf_C17_ode23_3d. Qed.
Print Assumptions C17_ode23_3d.

(** C17, RK3, 2D (always periodic). *)
Theorem C17_rk3_2d :
  forall (W : Type) (dom : domain R) (d : disc2 R) (p : ch_params R)
    (x : rk3_world R (scratch R) W) (c0 : list R) (u0 : Z -> Z -> R) (t0 : R) (dts : list R),
  valid_domain2 dom -> 2 <= nhalo dom -> nhalo dom <= nx dom -> make2 dom = Ok d ->
  (forall k, In k [r_k1 (k_int x); r_k2 (k_int x); r_k3 (k_int x); r_stage (k_int x)] -> shaped 1 (cells2 dom) k) ->
  scratch_fits (cells2 dom) (k_sc x) -> shaped 1 (cells2 dom) (k_du x) ->
  k_u x = [c0] -> holds_inside2 dom c0 u0 -> (ch_sigma p = 0%R \/ mean2 dom u0 = ch_m p) ->
  exists xs, run_steps (rk3_do (ch_rhs2 d p)) x t0 dts = Ok xs /\ length xs = length dts /\
    forall x', In x' xs -> exists c' u', k_u x' = [c'] /\ holds_inside2 dom c' u' /\ mean2 dom u' = mean2 dom u0.
Proof. exact pf_C17_rk3_2d. Qed.
Print Assumptions C17_rk3_2d.

(** C17, adaptive RK2(3), 2D. *)
Theorem C17_ode23_2d :
  forall (W : Type) (rmax : R -> list R -> R) (dom : domain R) (d : disc2 R) (p : ch_params R)
    (x : ode23_world R (scratch R) W) (c0 : list R) (u0 : Z -> Z -> R) (t0 : R) (dts : list R),
  valid_domain2 dom -> 2 <= nhalo dom -> nhalo dom <= nx dom -> make2 dom = Ok d ->
  (forall k, In k [o_k1 (e_int x); o_k2 (e_int x); o_k3 (e_int x); o_k4 (e_int x); o_stage (e_int x)] ->
     shaped 1 (cells2 dom) k) ->
  o_first (e_int x) = true ->
  scratch_fits (cells2 dom) (e_sc x) -> shaped 1 (cells2 dom) (e_du x) ->
  e_u x = [c0] -> holds_inside2 dom c0 u0 -> (ch_sigma p = 0%R \/ mean2 dom u0 = ch_m p) ->
  exists xs, run_steps (ode23_do rmax (ch_rhs2 d p)) x t0 dts = Ok xs /\ length xs = length dts /\
    forall x', In x' xs -> exists c' u', e_u x' = [c'] /\ holds_inside2 dom c' u' /\ mean2 dom u' = mean2 dom u0.
Proof. exact pf_C17_ode23_2d. Qed.
Print Assumptions C17_ode23_2d.

(** C17, whole runs in 3D: every state of a run of the program's time loop with RK3 and any
    options, observers that leave the solver's data alone, and any outcome, has the initial
    mean; the final state included. *)
Theorem C17_solve_rk3_3d :
  forall (W L : Type) (monitor : rk3_world R (scratch R) W -> list (String.string * R))
    (call : L -> Z -> R -> R -> rk3_world R (scratch R) W -> res (rk3_world R (scratch R) W))
    (fuel : nat) (o : time_options R) (obs : observable L) rs gf
    (dom : domain R) (d : disc3 R) (variant : Z) (p : ch_params R)
    (x : rk3_world R (scratch R) W) (c0 : list R) (u0 : Z -> Z -> Z -> R),
  (forall l i t dt y y', call l i t dt y = Ok y' ->
     k_int y' = k_int y /\ k_sc y' = k_sc y /\ k_u y' = k_u y /\ k_du y' = k_du y) ->
  valid_domain3 dom -> 2 <= nhalo dom -> nhalo dom <= nx dom /\ nhalo dom <= ny dom /\ nhalo dom <= nz dom ->
  xbc dom <> Neumann /\ ybc dom <> Neumann /\ zbc dom <> Neumann ->
  make3 dom = Ok d -> 0 <= variant <= 2 ->
  (forall k, In k [r_k1 (k_int x); r_k2 (k_int x); r_k3 (k_int x); r_stage (k_int x)] -> shaped 1 (cells3 dom) k) ->
  scratch_fits (cells3 dom) (k_sc x) -> shaped 1 (cells3 dom) (k_du x) ->
  k_u x = [c0] -> holds_inside3 dom c0 u0 -> (ch_sigma p = 0%R \/ mean3 dom u0 = ch_m p) ->
  solve (rk3_do (ch_rhs3 d variant p)) rk3_next_dt monitor call fuel o obs x = Some (Ok (rs, gf)) ->
  forall g, In g (gf :: map s_after rs) ->
    exists c' u', k_u (g_world g) = [c'] /\ holds_inside3 dom c' u' /\ mean3 dom u' = mean3 dom u0.
Proof. exact pf_C17_solve_rk3_3d. Qed.
Print Assumptions C17_solve_rk3_3d.

(** The same with the adaptive integrator and its step-size controller. *)
Theorem C17_solve_ode23_3d :
  forall (W L : Type) (monitor : ode23_world R (scratch R) W -> list (String.string * R))
    (call : L -> Z -> R -> R -> ode23_world R (scratch R) W -> res (ode23_world R (scratch R) W))
    (rmax : R -> list R -> R) (pow : R -> R -> R)
    (fuel : nat) (o : time_options R) (obs : observable L) rs gf
    (dom : domain R) (d : disc3 R) (variant : Z) (p : ch_params R)
    (x : ode23_world R (scratch R) W) (c0 : list R) (u0 : Z -> Z -> Z -> R),
  (forall l i t dt y y', call l i t dt y = Ok y' ->
     e_int y' = e_int y /\ e_sc y' = e_sc y /\ e_u y' = e_u y /\ e_du y' = e_du y) ->
  valid_domain3 dom -> 2 <= nhalo dom -> nhalo dom <= nx dom /\ nhalo dom <= ny dom /\ nhalo dom <= nz dom ->
  xbc dom <> Neumann /\ ybc dom <> Neumann /\ zbc dom <> Neumann ->
  make3 dom = Ok d -> 0 <= variant <= 2 ->
  (forall k, In k [o_k1 (e_int x); o_k2 (e_int x); o_k3 (e_int x); o_k4 (e_int x); o_stage (e_int x)] ->
     shaped 1 (cells3 dom) k) ->
  o_first (e_int x) = true ->
  scratch_fits (cells3 dom) (e_sc x) -> shaped 1 (cells3 dom) (e_du x) ->
  e_u x = [c0] -> holds_inside3 dom c0 u0 -> (ch_sigma p = 0%R \/ mean3 dom u0 = ch_m p) ->
  solve (ode23_do rmax (ch_rhs3 d variant p)) (ode23_next_dt pow) monitor call fuel o obs x = Some (Ok (rs, gf)) ->
  forall g, In g (gf :: map s_after rs) ->
    exists c' u', e_u (g_world g) = [c'] /\ holds_inside3 dom c' u' /\ mean3 dom u' = mean3 dom u0.
Proof. exact pf_C17_solve_ode23_3d. Qed.
Print Assumptions C17_solve_ode23_3d.

Example C17_ex : (* 12 cells, sum 3, mean 1/4 = m: one RK3 step leaves the sum 3 while values change *)
  ex_run17 = Some [3]%Q.
Proof. vm_compute. reflexivity. Qed.

(** C48 (exact arithmetic): one step of the RK3 integrator, for any right-hand side object that
    implements a function f, any number of equations, any state, time and step, is one step of
    the Shu-Osher method: u1 = u + dt f(t,u); u2 = 3/4 u + 1/4 (u1 + dt f(t+dt,u1));
    result 1/3 u + 2/3 (u2 + dt f(t+dt/2,u2)). *)
Theorem C48_shu_osher :
  forall (S : Type) (eval : rhs_fun R S) (ok : S -> Prop) (nv : nat) (size : Z) (P : Z -> Prop)
    (f : R -> (nat -> Z -> R) -> nat -> Z -> R) (o : rk3 R) (sc : S) (u du : state R) (t dt : R) (w : nat -> Z -> R),
  computes eval ok nv size P f ->
  (forall k, In k [r_k1 o; r_k2 o; r_k3 o; r_stage o] -> shaped nv size k) ->
  ok sc -> state_holds nv size P u w -> shaped nv size du ->
  exists o' sc' u' du', rk3_step eval o sc u du t dt = Ok (o', sc', u', du') /\
    state_holds nv size P u' (shu_osher f t dt w) /\
    ok sc' /\ shaped nv size du' /\ (forall k, In k [r_k1 o'; r_k2 o'; r_k3 o'; r_stage o'] -> shaped nv size k).
Proof. exact pf_C48_shu_osher. Qed.
Print Assumptions C48_shu_osher.

(** C48: the method is exact for right-hand sides that are polynomials of degree two in time. *)
Theorem C48_time_polynomial :
  forall (a b c : nat -> Z -> R) (t dt : R) (u : nat -> Z -> R) (e : nat) (i : Z),
  shu_osher (fun t _ e i => a e i + b e i * t + c e i * t ^ 2)%R t dt u e i =
  (u e i + (a e i * ((t + dt) - t) + b e i * ((t + dt) ^ 2 - t ^ 2) / 2 + c e i * ((t + dt) ^ 3 - t ^ 3) / 3))%R.
Proof. exact pf_C48_time_polynomial. Qed.
Print Assumptions C48_time_polynomial.

(** C48: for every linear right-hand side A the step is the Taylor polynomial of exp(dt A) of
    degree three. *)
Theorem C48_linear :
  forall (A : (nat -> Z -> R) -> nat -> Z -> R) (t dt : R) (u : nat -> Z -> R) (e : nat) (i : Z),
  (forall (a b : R) v w e i, A (fun e i => a * v e i + b * w e i)%R e i = (a * A v e i + b * A w e i)%R) ->
  (forall v w, (forall e i, v e i = w e i) -> forall e i, A v e i = A w e i) ->
  shu_osher (fun _ => A) t dt u e i =
  (u e i + dt * A u e i + dt ^ 2 / 2 * A (A u) e i + dt ^ 3 / 6 * A (A (A u)) e i)%R.
Proof. exact pf_C48_linear. Qed.
Print Assumptions C48_linear.

(** C48: the four order conditions of third order: the step solves exactly the system
    u0' = 1, u1' = u0, u2' = u0^2, u3' = u1 from zero (solution dt, dt^2/2, dt^3/3, dt^3/6). *)
Theorem C48_order :
  forall (t dt : R) (i : Z),
  let u := shu_osher tree_rhs t dt (fun _ _ => 0%R) in
  u 0%nat i = dt /\ u 1%nat i = (dt ^ 2 / 2)%R /\ u 2%nat i = (dt ^ 3 / 3)%R /\ u 3%nat i = (dt ^ 3 / 6)%R.
Proof. exact pf_C48_order. Qed.
Print Assumptions C48_order.

Example C48_ex : (* one RK3 step of u' = u + t, rationals, dt = 1/2 from u = 2 at t = 1; the Shu-Osher value *)
  match rk3_do (N:=Num_Q) (fun (_ : unit) s t r => Ok (tt, s, map (map (fun v => Qred (v + t))%Q) s))
      (ex_rk3 [0%Q] [2%Q]) 1%Q (1 # 2)%Q with
  | Ok x => k_u x = [[49 # 12]]%Q
  | _ => False
  end.
Proof. vm_compute. reflexivity. Qed.

(** C49, first stage (any arithmetic with 1*d = d, so also doubles): in a run of the time loop with
    a fresh adaptive integrator, its controller, any options and observers that leave the
    solver's data alone, there are states u_0 (the initial one), u_1, ... such that after the
    k-th step the solution holds u_{k+1} and the first stage used in it was exactly f(t_k, u_k):
    reusing the last stage of the step before changes nothing. *)
Theorem C49_first_stage :
  forall (V : Type) (N : Num V) (S W L : Type) (eval : rhs_fun V S) (ok : S -> Prop) (nv : nat) (size : Z) (P : Z -> Prop)
    (f : V -> (nat -> Z -> V) -> nat -> Z -> V) (rmax : V -> list V -> V) (pow : V -> V -> V)
    (monitor : ode23_world V S W -> list (String.string * V))
    (call : L -> Z -> V -> V -> ode23_world V S W -> res (ode23_world V S W))
    (fuel : nat) (o : time_options V) (obs : observable L) (x : ode23_world V S W) rs gf (u0 : nat -> Z -> V),
  (forall d : V, nmul (nint 1) d = d) ->
  computes eval ok nv size P f ->
  (forall l i t d y y', call l i t d y = Ok y' ->
     e_int y' = e_int y /\ e_sc y' = e_sc y /\ e_u y' = e_u y /\ e_du y' = e_du y) ->
  (forall k, In k [o_k1 (e_int x); o_k2 (e_int x); o_k3 (e_int x); o_k4 (e_int x); o_stage (e_int x)] -> shaped nv size k) ->
  o_first (e_int x) = true -> ok (e_sc x) -> state_holds nv size P (e_u x) u0 -> shaped nv size (e_du x) ->
  solve (ode23_do rmax eval) (ode23_next_dt pow) monitor call fuel o obs x = Some (Ok (rs, gf)) ->
  exists us, length us = Datatypes.S (length rs) /\ nth_error us 0 = Some u0 /\
    forall k r, nth_error rs k = Some r -> exists u u',
      nth_error us k = Some u /\ nth_error us (Datatypes.S k) = Some u' /\
      state_holds nv size P (e_u (g_world (s_after r))) u' /\
      state_holds nv size P (o_k1 (e_int (g_world (s_after r)))) (f (s_time r) u).
Proof. exact pf_C49_first_stage. Qed.
Print Assumptions C49_first_stage.

(** C49 (exact arithmetic): and every step of the run, from u_k at t_k with size dt_k, is one step
    of the Bogacki-Shampine method. *)
Theorem C49_scheme :
  forall (S W L : Type) (eval : rhs_fun R S) (ok : S -> Prop) (nv : nat) (size : Z) (P : Z -> Prop)
    (f : R -> (nat -> Z -> R) -> nat -> Z -> R) (rmax : R -> list R -> R) (pow : R -> R -> R)
    (monitor : ode23_world R S W -> list (String.string * R))
    (call : L -> Z -> R -> R -> ode23_world R S W -> res (ode23_world R S W))
    (fuel : nat) (o : time_options R) (obs : observable L) (x : ode23_world R S W) rs gf (u0 : nat -> Z -> R),
  computes eval ok nv size P f ->
  (forall l i t d y y', call l i t d y = Ok y' ->
     e_int y' = e_int y /\ e_sc y' = e_sc y /\ e_u y' = e_u y /\ e_du y' = e_du y) ->
  (forall k, In k [o_k1 (e_int x); o_k2 (e_int x); o_k3 (e_int x); o_k4 (e_int x); o_stage (e_int x)] -> shaped nv size k) ->
  o_first (e_int x) = true -> ok (e_sc x) -> state_holds nv size P (e_u x) u0 -> shaped nv size (e_du x) ->
  solve (ode23_do rmax eval) (ode23_next_dt pow) monitor call fuel o obs x = Some (Ok (rs, gf)) ->
  exists us, length us = Datatypes.S (length rs) /\ nth_error us 0 = Some u0 /\
    forall k r, nth_error rs k = Some r -> exists u,
      nth_error us k = Some u /\ nth_error us (Datatypes.S k) = Some (bogacki_shampine f (s_time r) (s_dt r) u) /\
      state_holds nv size P (e_u (g_world (s_after r))) (bogacki_shampine f (s_time r) (s_dt r) u) /\
      state_holds nv size P (o_k1 (e_int (g_world (s_after r)))) (f (s_time r) u).
Proof. exact pf_C49_scheme. Qed.
Print Assumptions C49_scheme.

(** C49: order conditions of the Bogacki-Shampine step (third order), and exactness for right-hand
    sides quadratic in time. *)
Theorem C49_order :
  (forall (t dt : R) (i : Z),
   let u := bogacki_shampine tree_rhs t dt (fun _ _ => 0%R) in
   u 0%nat i = dt /\ u 1%nat i = (dt ^ 2 / 2)%R /\ u 2%nat i = (dt ^ 3 / 3)%R /\ u 3%nat i = (dt ^ 3 / 6)%R) /\
  (forall (a b c : nat -> Z -> R) (t dt : R) (u : nat -> Z -> R) (e : nat) (i : Z),
   bogacki_shampine (fun t _ e i => a e i + b e i * t + c e i * t ^ 2)%R t dt u e i =
   (u e i + (a e i * ((t + dt) - t) + b e i * ((t + dt) ^ 2 - t ^ 2) / 2 + c e i * ((t + dt) ^ 3 - t ^ 3) / 3))%R).
Proof. exact pf_C49_order. Qed.
Print Assumptions C49_order.

(** C49 (exact arithmetic), the error estimate handed to the step-size controller: for a step
    0 <= dt <= 1 whose first stage is right, it is the largest difference between the third-order
    and the embedded second-order solution over all equations and all cells P, whatever the
    schedule of the parallel maximum, provided the right-hand side arrays are zero outside P. *)
Theorem C49_error :
  forall (S : Type) (eval : rhs_fun R S) (ok : S -> Prop) (nv : nat) (size : Z) (P : Z -> Prop)
    (f : R -> (nat -> Z -> R) -> nat -> Z -> R) (rmax : R -> list R -> R) (o : ode23 R) (sc : S) (u du : state R)
    (t dt : R) (w : nat -> Z -> R),
  computes eval ok nv size P f -> keeps_zero eval ok nv size P ->
  (forall i l, reduction nmax i i l (rmax i l)) -> (forall i, P i \/ ~ P i) -> (0 <= dt <= 1)%R ->
  (forall k, In k [o_k1 o; o_k2 o; o_k3 o; o_k4 o; o_stage o] -> shaped nv size k) ->
  ok sc -> state_holds nv size P u w -> shaped nv size du ->
  (o_first o = false -> state_holds nv size P (o_k4 o) (f t w)) ->
  (forall k, In k [o_k1 o; o_k2 o; o_k3 o; o_k4 o] -> zero_off nv size P k) ->
  exists o' sc' u' du', ode23_step rmax eval o sc u du t dt = Ok (o', sc', u', du') /\
    (0 <= o_err o')%R /\
    (forall e i, (e < nv)%nat -> 0 <= i < size -> P i ->
       (Rabs (bogacki_shampine f t dt w e i - bs_embedded f t dt w e i) <= o_err o')%R) /\
    (o_err o' = 0%R \/ exists e i, (e < nv)%nat /\ 0 <= i < size /\ P i /\
       o_err o' = Rabs (bogacki_shampine f t dt w e i - bs_embedded f t dt w e i)).
Proof. exact pf_C49_error. Qed.
Print Assumptions C49_error.

(** C49: for dt > 1 and several equations the estimate is not that maximum: the error of the earlier
    equations is multiplied by dt once more.  Witness (rationals): u0' = t^2, u1' = 0 from zero,
    dt = 2; third-order values 8/3 and 0, embedded values 3 and 0, estimate 2/3. *)
Theorem C49_error_large_step_refuted :
  exists (x x' : ode23_world Q unit unit),
  o_first (e_int x) = true /\ e_u x = [[0]; [0]]%Q /\
  ode23_do (N:=Num_Q) seq_max (fun _ s t _ => Ok (tt, s, [[Qred (t * t)]; [0]]%Q)) x 0%Q 2%Q = Ok x' /\
  e_u x' = [[8 # 3]; [0]]%Q /\
  (0 + 2 * (7 # 24) * 0 ^ 2 + 2 * (1 # 4) * 1 ^ 2 + 2 * (1 # 3) * (3 # 2) ^ 2 + 2 * (1 # 8) * 2 ^ 2 == 3)%Q /\
  o_err (e_int x') = (2 # 3)%Q.
Proof. exact pf_C49_error_large_step_refuted. Qed.
Print Assumptions C49_error_large_step_refuted.

(** C49: only within one solve.  An integrator used for a second solve with new initial conditions
    starts it with the last stage of the first one.  Witness: u' = -u, one step from u = 1, then
    the state is set to 5: the next step's first stage is not -5. *)
Theorem C49_second_solve_refuted :
  exists (x x1 x2 : ode23_world Q unit unit) (k : Q),
  let eval := fun (_ : unit) s (_ : Q) (_ : state Q) => Ok (tt, s, map (map (fun v => Qred (- v)))%Q s) in
  o_first (e_int x) = true /\ e_u x = [[1]]%Q /\
  ode23_do (N:=Num_Q) seq_max eval x 0%Q (1 # 2)%Q = Ok x1 /\
  ode23_do (N:=Num_Q) seq_max eval (with_solution x1 [[5]]%Q) 0%Q (1 # 2)%Q = Ok x2 /\
  o_k1 (e_int x2) = [[k]] /\ ~ (k == -5)%Q.
Proof. exact pf_C49_second_solve_refuted. Qed.
Print Assumptions C49_second_solve_refuted.

(** The Cahn-Hilliard right-hand sides meet the hypotheses above on the interior cells, for every
    grid, boundary combination, variant and parameters: they implement a function of the interior
    values and keep zero halos of the output at zero. *)
Example C49_ch_ex : forall (dom : domain R) (d : disc3 R) (variant : Z) (p : ch_params R),
  valid_domain3 dom -> 2 <= nhalo dom -> nhalo dom <= nx dom /\ nhalo dom <= ny dom /\ nhalo dom <= nz dom ->
  make3 dom = Ok d -> 0 <= variant <= 2 ->
  let P := fun z => exists i j k, inside3 dom i j k /\ z = slot3 dom i j k in
  exists f, computes (ch_rhs3 d variant p) (scratch_fits (cells3 dom)) 1 (cells3 dom) P f /\
    keeps_zero (ch_rhs3 d variant p) (scratch_fits (cells3 dom)) 1 (cells3 dom) P.
Proof. exact pf_ch_ex. Qed.
Example C49_ch2_ex : forall (dom : domain R) (d : disc2 R) (p : ch_params R),
  valid_domain2 dom -> 2 <= nhalo dom -> nhalo dom <= nx dom -> make2 dom = Ok d ->
  let P := fun z => exists i j, inside2 dom i j /\ z = slot2 dom i j in
  exists f, computes (ch_rhs2 d p) (scratch_fits (cells2 dom)) 1 (cells2 dom) P f /\
    keeps_zero (ch_rhs2 d p) (scratch_fits (cells2 dom)) 1 (cells2 dom) P.
Proof. exact pf_ch2_ex. Qed.
Example C49_ex : (* two adaptive steps of u' = u + t (rationals): the first stage of the second is the value at its start *)
  match run_steps (N:=Num_Q) (ode23_do (N:=Num_Q) seq_max
     (fun (_ : unit) s t r => Ok (tt, s, map (map (fun v => Qred (v + t))%Q) s)))
      (ex_ode 0%Q [[0]]%Q [[2]]%Q) 1%Q [1 # 2; 1 # 2]%Q with
  | Ok [x1; x2] => e_u x1 = [[49 # 12]]%Q /\ o_k1 (e_int x2) = [[67 # 12]]%Q
  | _ => False
  end.
Proof. vm_compute. split; reflexivity. Qed.
