(** Runs of the solver: C41 to C47 and C50.

    [solve do_step next_dt monitor call fuel opts observers x] is TimeIntegrator::solve for
    any time step, any step-size controller, any residual monitor and any callbacks; its
    result lists what every step did ([s_time], [s_dt], [s_calls], [s_after]). *)
From Coq Require Import ZArith QArith List Reals String Lra.
From Verif Require Import Outcome ZList Num ModelObs ModelTime SpecTime SpecObs ExampleNum RunFinal.
Import ListNotations.
Local Open Scope Z_scope.
Local Open Scope list_scope.

(** C41: after any history of registrations, a lookup returns the first factory registered
    under the name, and throws exactly when the name was never registered; registering reports
    success also when the name was taken and the factory is dropped. *)
Theorem C41_registry :
  forall (F : Type) (h : list (string * F)) (name : string),
  (forall f, reg_lookup (reg_history h) name = Ok f <->
     exists h1 h2, h = h1 ++ (name, f) :: h2 /\ ~ In name (map fst h1)) /\
  (reg_lookup (reg_history h) name = Throw <-> ~ In name (map fst h)) /\
  (In name (map fst h) <-> exists f, reg_lookup (reg_history h) name = Ok f) /\
  (forall f, snd (reg_add (reg_history h) name f) = true).
Proof. exact pf_C41_registry. Qed.
Print Assumptions C41_registry.

Example C41_ex :
  let h := [("rk3ssp"%string, 1); ("ode23"%string, 2); ("rk3ssp"%string, 3)] in
  reg_lookup (reg_history h) "rk3ssp" = Ok 1 /\ reg_lookup (reg_history h) "ode23" = Ok 2 /\
  reg_lookup (reg_history h) "bdf" = Throw.
Proof. repeat split. Qed.

(** C42: in every history of registrations, frequency changes and notifications of an
    observable object, a notification of event e runs, in registration order, all the
    observers of e registered before it when the number of notifications of e since it has
    observers is a multiple of the frequency, and no observer at all otherwise; nothing
    else runs observers. *)
Theorem C42_observers :
  forall (L : Type) (h h1 h2 : list (obs_op L)) (op : obs_op L) (calls : list (list L)),
  obs_run new_observable h = Ok calls -> h = h1 ++ op :: h2 ->
  exists ls, nth_error calls (List.length h1) = Some ls /\
    match op with
    | Notify e =>
        ((frequency h1 e | notified h1 e) -> ls = registered h1 e) /\
        (~ (frequency h1 e | notified h1 e) -> ls = [])
    | _ => ls = []
    end.
Proof. exact pf_C42_observers. Qed.
Print Assumptions C42_observers.

(** C42: no history is undefined unless an event with observers is notified while its
    frequency is zero, or more than 2^31-1 times. *)
Theorem C42_defined :
  forall (L : Type) (h : list (obs_op L)),
  (forall h1 e h2, h = h1 ++ Notify e :: h2 -> registered h1 e <> [] ->
     frequency h1 e <> 0 /\ notified h1 e < 2147483647) ->
  exists calls, obs_run new_observable h = Ok calls /\ List.length calls = List.length h.
Proof. exact pf_C42_defined. Qed.
Print Assumptions C42_defined.

(** C42 (its limits): such a notification is undefined, whatever came before or follows. *)
Theorem C42_undefined :
  forall (L : Type) (h1 : list (obs_op L)) (e : event) (h2 : list (obs_op L)),
  registered h1 e <> [] -> frequency h1 e = 0 \/ 2147483647 <= notified h1 e ->
  obs_run new_observable (h1 ++ Notify e :: h2) = UB.
Proof. exact pf_C42_undefined. Qed.
Print Assumptions C42_undefined.

Example C42_ex :
  obs_run new_observable
    [Register TimeStepComplete 1; Register SolutionUpdate 7; Register TimeStepComplete 2;
     SetFrequency TimeStepComplete 2; Notify TimeStepComplete; Notify SolutionUpdate;
     Notify TimeStepComplete; Notify TimeStepComplete; Notify TimeStepComplete; Notify SolutionUpdate]
  = Ok [[]; []; []; []; [1; 2]; [7]; []; [1; 2]; []; [7]].
Proof. reflexivity. Qed.
Example C42_zero_frequency :
  obs_run new_observable [Register SolutionUpdate 7; SetFrequency SolutionUpdate 0; Notify SolutionUpdate] = UB
  /\ obs_run (L:=Z) new_observable [SetFrequency SolutionUpdate 0; Notify SolutionUpdate] = Ok [[]; []].
Proof. split; reflexivity. Qed.

(** C44: iteration numbers and times.  The k-th step (from 0) starts at the initial time plus
    the sum of the earlier steps and leaves the counter at initial step + k + 1; at the end
    the time is the initial time plus all steps, added in order (any arithmetic). *)
Theorem C44_counts :
  forall (V : Type) (N : Num V) (X L : Type) (do_step : X -> V -> V -> res X) (next_dt : X -> V -> res (X * V))
    (monitor : X -> list (string * V)) (call : L -> Z -> V -> V -> X -> res X)
    (fuel : nat) (o : time_options V) (obs : observable L) (x : X) rs gf,
  solve do_step next_dt monitor call fuel o obs x = Some (Ok (rs, gf)) ->
  rs <> [] /\
  g_iter gf = t_initial_step o + Z.of_nat (List.length rs) /\
  g_time gf = fold_left nadd (map s_dt rs) (t_t0 o) /\
  (forall k r, nth_error rs k = Some r ->
     g_iter (s_after r) = t_initial_step o + Z.of_nat k + 1 /\
     s_time r = fold_left nadd (map s_dt (firstn k rs)) (t_t0 o) /\
     g_time (s_after r) = nadd (s_time r) (s_dt r) /\
     g_dt (s_after r) = s_dt r).
Proof. exact pf_C44_counts. Qed.
Print Assumptions C44_counts.

(** C44: with a step limit N > 0 a run makes at most N steps (one when the initial step
    number is already at or past the limit), whatever the time step and controller do. *)
Theorem C44_limit :
  forall (V : Type) (N : Num V) (X L : Type) (do_step : X -> V -> V -> res X) (next_dt : X -> V -> res (X * V))
    (monitor : X -> list (string * V)) (call : L -> Z -> V -> V -> X -> res X)
    (fuel : nat) (o : time_options V) (obs : observable L) (x : X) rs gf,
  solve do_step next_dt monitor call fuel o obs x = Some (Ok (rs, gf)) ->
  0 < t_max_steps o -> 0 <= t_initial_step o ->
  Z.of_nat (List.length rs) <= Z.max 1 (t_max_steps o - t_initial_step o) <= t_max_steps o.
Proof. exact pf_C44_limit. Qed.
Print Assumptions C44_limit.

(** C44: with a step limit every run ends, if its steps, callbacks and controller do in the
    worlds the run can reach (I), no observer frequency is zero and the residual monitor is not
    empty when an absolute tolerance is set. *)
Theorem C44_ends :
  forall (V : Type) (N : Num V) (X L : Type) (do_step : X -> V -> V -> res X) (next_dt : X -> V -> res (X * V))
    (monitor : X -> list (string * V)) (call : L -> Z -> V -> V -> X -> res X)
    (o : time_options V) (obs : observable L) (x : X) (I : X -> Prop),
  (forall x t d, I x -> exists x', do_step x t d = Ok x' /\ I x') ->
  (forall l i t d x, I x -> exists x', call l i t d x = Ok x' /\ I x') ->
  (forall x d, I x -> exists x' d', next_dt x d = Ok (x', d') /\ I x') -> I x ->
  t_use_cfl o = false ->
  (neqb (t_abs_tol o) (nint 0) = true \/ forall x, I x -> monitor x <> []) ->
  0 < t_max_steps o <= 2147483647 -> 0 <= t_initial_step o < 2147483647 ->
  obs_ready obs (t_max_steps o + 1) ->
  exists fuel rs gf, solve do_step next_dt monitor call fuel o obs x = Some (Ok (rs, gf)) /\
    I (g_world gf) /\ forall r, In r rs -> I (g_world (s_after r)).
Proof. exact pf_C44_ends. Qed.
Print Assumptions C44_ends.

Example C44_ex : (* a limit of 3 steps; the third leaves its step size replaced by the next one *)
  ex_solve (ex_opts 100 (1 # 2) 3 0 0 0) =
    Some (Ok ([(0, 1 # 2); (1 # 2, 1 # 2); (1, 1 # 2)], (3%Z, 3 # 2, 1 # 2)))%Q.
Proof. vm_compute. reflexivity. Qed.
Example C44_past_limit_ex : (* restarting at or past the limit still makes one step *)
  ex_solve (ex_opts 100 (1 # 2) 3 7 0 0) = Some (Ok ([(0, 1 # 2)], (8%Z, 1 # 2, 1 # 2)))%Q.
Proof. vm_compute. reflexivity. Qed.

(** C43 (exact arithmetic): let I describe worlds in which a time step, a callback and the
    controller succeed and which they preserve.  With a controller whose steps are at least
    dmin > 0, a first step that does not pass the final time and no other stopping criterion, the run ends, exactly at
    the final time; no step passes it; the first step is the configured one and every later
    one is the controller's, except that the last is cut to the remaining time. *)
Theorem C43_final_time :
  forall (X L : Type) (do_step : X -> R -> R -> res X) (next_dt : X -> R -> res (X * R))
    (monitor : X -> list (string * R)) (call : L -> Z -> R -> R -> X -> res X)
    (o : time_options R) (obs : observable L) (x : X) (I : X -> Prop) (dmin : R) (K : Z),
  (forall x t d, I x -> exists x', do_step x t d = Ok x' /\ I x') ->
  (forall l i t d x, I x -> exists x', call l i t d x = Ok x' /\ I x') ->
  (0 < dmin)%R ->
  (forall x d, I x -> (dmin <= d)%R -> exists x' d', next_dt x d = Ok (x', d') /\ (dmin <= d')%R /\ I x') ->
  I x ->
  t_use_cfl o = false -> t_max_steps o = 0 -> t_rel_tol o = 0%R -> t_abs_tol o = 0%R ->
  (dmin <= t_dt_initial o)%R -> (t_t0 o + t_dt_initial o <= t_tfinal o)%R ->
  ((t_tfinal o - t_t0 o) / dmin + 2 <= IZR K)%R -> t_initial_step o + K <= 2147483647 -> obs_ready obs K ->
  exists fuel rs gf, solve do_step next_dt monitor call fuel o obs x = Some (Ok (rs, gf)) /\
    g_time gf = t_tfinal o /\ I (g_world gf) /\
    (forall r, In r rs -> (0 <= s_dt r)%R /\ (g_time (s_after r) <= t_tfinal o)%R /\ I (g_world (s_after r))) /\
    (exists r rest, rs = r :: rest /\ s_dt r = t_dt_initial o /\ s_time r = t_t0 o) /\
    (forall r r', follows rs r r' ->
       exists x' d, next_dt (g_world (s_after r)) (s_dt r) = Ok (x', d) /\
         (s_dt r' = d \/
          (s_dt r' = t_tfinal o - g_time (s_after r) /\ (s_dt r' <= d)%R /\ exists l, rs = l ++ [r; r'])%R)).
Proof. exact pf_C43_final_time. Qed.
Print Assumptions C43_final_time.

Example C43_ex : (* from 0 to 1 by steps of 3/10: four steps, the last one shortened *)
  ex_solve (ex_opts 1 (3 # 10) 0 0 0 0) =
    Some (Ok ([(0, 3 # 10); (3 # 10, 3 # 10); (3 # 5, 3 # 10); (9 # 10, 1 # 10)], (4%Z, 1, 1 # 10)))%Q.
Proof. vm_compute. reflexivity. Qed.
Example C43_exact_landing_ex : (* a first step that ends exactly at the final time is followed by a step of length 0 *)
  ex_solve (ex_opts 1 1 0 0 0 0) = Some (Ok ([(0, 1); (1, 0)], (2%Z, 1, 0)))%Q.
Proof. vm_compute. reflexivity. Qed.

(** C45 (exact arithmetic): if the configured first step is larger than the remaining time, the
    run passes the final time with its first step and then takes one negative step back to it. *)
Theorem C45_overshoot :
  forall (X L : Type) (do_step : X -> R -> R -> res X) (next_dt : X -> R -> res (X * R))
    (monitor : X -> list (string * R)) (call : L -> Z -> R -> R -> X -> res X)
    (o : time_options R) (obs : observable L) (x : X) (I : X -> Prop),
  (forall x t d, I x -> exists x', do_step x t d = Ok x' /\ I x') ->
  (forall l i t d x, I x -> exists x', call l i t d x = Ok x' /\ I x') ->
  (forall x d, I x -> exists x' d', next_dt x d = Ok (x', d') /\ ((0 <= d)%R -> (0 <= d')%R) /\ I x') -> I x ->
  t_use_cfl o = false -> t_max_steps o = 0 -> t_rel_tol o = 0%R -> t_abs_tol o = 0%R ->
  (t_tfinal o < t_t0 o + t_dt_initial o)%R -> (0 <= t_dt_initial o)%R ->
  t_initial_step o + 2 <= 2147483647 -> obs_ready obs 2 ->
  exists r1 r2 gf, solve do_step next_dt monitor call 2 o obs x = Some (Ok ([r1; r2], gf)) /\
    s_dt r1 = t_dt_initial o /\ (t_tfinal o < g_time (s_after r1))%R /\
    (s_dt r2 < 0)%R /\ s_dt r2 = (t_tfinal o - (t_t0 o + t_dt_initial o))%R /\ g_time gf = t_tfinal o.
Proof. exact pf_C45_overshoot. Qed.
Print Assumptions C45_overshoot.

Example C45_ex : ex_solve (ex_opts 1 (3 # 2) 0 0 0 0) = Some (Ok ([(0, 3 # 2); (3 # 2, - 1 # 2)], (2%Z, 1, - 1 # 2)))%Q.
Proof. vm_compute. reflexivity. Qed.

(** C46: a run goes on after a step only if the relative residual reported after that step is
    not below the (non-zero) relative tolerance, and the first residual reported is not below
    the (non-zero) absolute tolerance: it stops after the first step where one is below. *)
Theorem C46_stops :
  forall (V : Type) (N : Num V) (X L : Type) (do_step : X -> V -> V -> res X) (next_dt : X -> V -> res (X * V))
    (monitor : X -> list (string * V)) (call : L -> Z -> V -> V -> X -> res X)
    (fuel : nat) (o : time_options V) (obs : observable L) (x : X) rs gf,
  (forall x d x' d', next_dt x d = Ok (x', d') -> monitor x' = monitor x) ->
  solve do_step next_dt monitor call fuel o obs x = Some (Ok (rs, gf)) ->
  forall r r', follows rs r r' ->
    (neqb (t_rel_tol o) (nint 0) = false ->
       forall v, reported "rel_res" (monitor (g_world (s_after r))) v -> nltb v (t_rel_tol o) = false) /\
    (neqb (t_abs_tol o) (nint 0) = false ->
       exists name v rest, monitor (g_world (s_after r)) = (name, v) :: rest /\ nltb v (t_abs_tol o) = false).
Proof. exact pf_C46_stops. Qed.
Print Assumptions C46_stops.

(** C46: and it ends only because the last step was the one that reaches the final time, or the
    step limit is reached, or one of the reported residuals after the last step is below its
    tolerance: never earlier because of a tolerance. *)
Theorem C46_not_earlier :
  forall (V : Type) (N : Num V) (X L : Type) (do_step : X -> V -> V -> res X) (next_dt : X -> V -> res (X * V))
    (monitor : X -> list (string * V)) (call : L -> Z -> V -> V -> X -> res X)
    (fuel : nat) (o : time_options V) (obs : observable L) (x : X) rs gf,
  (forall x d x' d', next_dt x d = Ok (x', d') -> monitor x' = monitor x) ->
  solve do_step next_dt monitor call fuel o obs x = Some (Ok (rs, gf)) ->
  exists rs0 r, rs = rs0 ++ [r] /\
    ((exists r0 x' d, follows rs r0 r /\ next_dt (g_world (s_after r0)) (s_dt r0) = Ok (x', d) /\
        (nltb (t_tfinal o) (nadd (g_time (s_after r0)) d) || neqb (nadd (g_time (s_after r0)) d) (t_tfinal o))%bool = true /\
        s_dt r = nsub (t_tfinal o) (g_time (s_after r0))) \/
     (t_max_steps o <> 0 /\ t_max_steps o <= g_iter (s_after r)) \/
     (neqb (t_rel_tol o) (nint 0) = false /\
        exists v, reported "rel_res" (monitor (g_world (s_after r))) v /\ nltb v (t_rel_tol o) = true) \/
     (neqb (t_abs_tol o) (nint 0) = false /\
        exists name v rest, monitor (g_world (s_after r)) = (name, v) :: rest /\ nltb v (t_abs_tol o) = true)).
Proof. exact pf_C46_not_earlier. Qed.
Print Assumptions C46_not_earlier.

(** C46: an absolute tolerance needs a residual to compare with: an integrator without an observer
    that reports residuals runs into undefined behaviour after its first step. *)
Theorem C46_nothing_reported_refuted :
  forall (V : Type) (N : Num V) (X L : Type) (do_step : X -> V -> V -> res X) (next_dt : X -> V -> res (X * V))
    (monitor : X -> list (string * V)) (call : L -> Z -> V -> V -> X -> res X)
    (fuel : nat) (o : time_options V) (x x1 : X) (next : X * V),
  (forall x, monitor x = []) -> t_use_cfl o = false -> neqb (t_abs_tol o) (nint 0) = false ->
  t_initial_step o < INT_MAX ->
  do_step x (t_t0 o) (t_dt_initial o) = Ok x1 -> next_dt x1 (t_dt_initial o) = Ok next ->
  solve do_step next_dt monitor call (S fuel) o new_observable x = Some UB.
Proof. exact pf_C46_nothing_reported_refuted. Qed.
Print Assumptions C46_nothing_reported_refuted.

Example C46_ex : (* the reported residual after step k is 1/k; tolerance 1/3: stops after step 4 *)
  ex_solve (ex_opts 100 (1 # 2) 0 0 (1 # 3) 0) =
    Some (Ok ([(0, 1 # 2); (1 # 2, 1 # 2); (1, 1 # 2); (3 # 2, 1 # 2)], (4%Z, 2, 1 # 2)))%Q /\
  ex_solve (ex_opts 100 (1 # 2) 0 0 0 (1 # 3)) =
    Some (Ok ([(0, 1 # 2); (1 # 2, 1 # 2); (1, 1 # 2); (3 # 2, 1 # 2)], (4%Z, 2, 1 # 2)))%Q.
Proof. split; vm_compute; reflexivity. Qed.
(** With an absolute tolerance and nothing ever reported the check is undefined. *)
Example C46_empty_monitor :
  solve (N:=Num_Q) (L:=driver_call) (fun x _ _ => Ok x) (fun x d => Ok (x, d)) (fun x => [])
     (fun _ _ _ _ x => Ok x) 50 (ex_opts 100 (1 # 2) 0 0 0 (1 # 3)) new_observable tt = Some UB.
Proof. vm_compute. reflexivity. Qed.

(** C47: in a run with the program's observers, log interval n > 0 and save interval m >= 0,
    step k (counted from 0) runs the residual, solution, time and log observers, in this order,
    exactly when n divides k, and after them writes a solution file exactly when m > 0 divides
    k; so files are written after the steps number 1, m+1, 2m+1, ... *)
Theorem C47_schedule :
  forall (V : Type) (N : Num V) (X : Type) (do_step : X -> V -> V -> res X) (next_dt : X -> V -> res (X * V))
    (monitor : X -> list (string * V)) (call : driver_call -> Z -> V -> V -> X -> res X)
    (fuel : nat) (o : time_options V) (n m : Z) (x : X) rs gf,
  0 < n -> 0 <= m ->
  solve do_step next_dt monitor call fuel o (driver_observers n m) x = Some (Ok (rs, gf)) ->
  forall k r, nth_error rs k = Some r ->
    s_calls r = (if Z.of_nat k mod n =? 0 then [SetResidual; SetSolution; SetTime; UpdateLog] else []) ++
                (if (0 <? m) && (Z.of_nat k mod m =? 0) then [WriteSolution] else []).
Proof. exact pf_C47_schedule. Qed.
Print Assumptions C47_schedule.

Example C47_ex : exists rs gf,
  solve (N:=Num_Q) (fun x _ _ => Ok x) (fun x d => Ok (x, d)) (fun x => [])
    (fun _ _ _ _ x => Ok x) 50 (ex_opts 100 1 4 0 0 0) (driver_observers 1 2) tt = Some (Ok (rs, gf)) /\
  map (fun r => List.length (s_calls r)) rs = [5; 4; 5; 4]%nat.
Proof. do 2 eexists. split; vm_compute; reflexivity. Qed.

(** C50 (any arithmetic whose comparison is irreflexive, so also doubles): a fresh controller
    never fails; its first three answers are the steps it is given, all later ones are not
    below the minimum and not above the maximum, whatever the error estimates, the steps fed
    and the results of pow are. *)
Theorem C50_bounds :
  forall (V : Type) (N : Num V) (pow : V -> V -> V) (tol lo hi : V) (fed : list (V * V)),
  (forall x : V, nltb x x = false) -> nltb hi lo = false ->
  exists l, pid_run pow (new_pid tol lo hi) fed = Ok l /\ List.length l = List.length fed /\
    forall k e s st, nth_error fed k = Some (e, s) -> nth_error l k = Some st ->
      ((k < 3)%nat -> st = s) /\
      ((3 <= k)%nat -> nltb st lo = false /\ nltb hi st = false).
Proof. exact pf_C50_bounds. Qed.
Print Assumptions C50_bounds.

(** C50 (exact arithmetic): from an initial step within the bounds, all steps of the controller
    stay within them, each step is between 1/100 and 11/10 of the one before, and the first
    four steps (the initial one and the three chosen after it) are equal. *)
Theorem C50_controlled :
  forall (pow : R -> R -> R) (tol lo hi s : R) (errs : list R),
  (0 < lo)%R -> (lo <= s <= hi)%R ->
  exists l, controlled pow (new_pid tol lo hi) s errs = Ok l /\ List.length l = S (List.length errs) /\
    (forall st, In st l -> (lo <= st <= hi)%R) /\
    (forall a b, follows l a b -> (a / 100 <= b <= a * (11 / 10))%R) /\
    (forall k st, (k <= 3)%nat -> nth_error l k = Some st -> st = s).
Proof. exact pf_C50_controlled. Qed.
Print Assumptions C50_controlled.

(** C50 (exact arithmetic): from its fourth answer on, the controller answers the law of a PID
    controller: the current step times powers of the ratios of the tolerance to the last three
    error estimates, with exponents from the ratio of the last two steps; limited first to 1/100
    and 11/10 of the current step and then to the configured bounds.  Estimates below 2^-52 count
    as 2^-52, so that nothing is divided by zero. *)
Theorem C50_law :
  forall (pow : R -> R -> R) (tol lo hi : R) (fed : list (R * R)),
  exists l, pid_run pow (new_pid tol lo hi) fed = Ok l /\
    forall k e s e' s' e'' s'' st,
      nth_error fed (S (S (S k))) = Some (e, s) -> nth_error fed (S (S k)) = Some (e', s') ->
      nth_error fed (S k) = Some (e'', s'') -> nth_error l (S (S (S k))) = Some st ->
      st = between lo hi (between (s / 100) (s * (11 / 10)) (pid_law pow tol s s' (kept_error e) (kept_error e') (kept_error e''))).
Proof. exact pf_C50_law. Qed.
Print Assumptions C50_law.

Example C50_law_ex : pid_law (fun x _ => x) (1 / 10) 1 1 (1 / 5) (1 / 10) (1 / 20) = 1%R /\
  between (1 / 4) (1 / 2) 1 = (1 / 2)%R.
Proof.
  split; [unfold pid_law; field|]. unfold between. rewrite Rmin_right by lra. rewrite Rmax_left by lra. reflexivity.
Qed.

(** C50: an initial step outside the bounds is used unchanged four times, and the next one jumps
    to the bounds by any factor: the unconditional claim is false. *)
Theorem C50_initial_outside_refuted :
  exists (tol lo hi s : R) (errs : list R) (l : list R) (a b : R),
  (0 < lo < hi)%R /\ (0 < s)%R /\
  controlled (fun _ _ => 1%R) (new_pid tol lo hi) s errs = Ok l /\
  In s l /\ (s < lo)%R /\ follows l a b /\ (b > a * 100)%R.
Proof. exact pf_C50_initial_outside_refuted. Qed.
Print Assumptions C50_initial_outside_refuted.

Example C50_ex : (* rational controller with pow replaced by its first argument: three steps kept, then clamped *)
  pid_run (N:=Num_Q) (fun x _ => x) (new_pid (1 # 10) (1 # 4) 1)%Q
    [(1 # 10, 1); (1 # 10, 1); (1 # 10, 1); (1 # 20, 1); (1, 1)]%Q = Ok [1; 1; 1; 1; 1 # 4]%Q.
Proof. vm_compute. reflexivity. Qed.
