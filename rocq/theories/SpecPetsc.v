(** What a time stepper that works on vectors of cell values should see. *)
From Verif Require Import Outcome ZList Num ModelIndex ModelDisc3D ModelDisc2D ModelCH SpecGrid SpecField SpecMatrix SpecTime SpecMon ModelObs ModelTime ModelCSR ModelJac
  ModelPetsc.
From Coq Require Import Reals String List.

(** Array c and vector x contain the same values, cell by cell. *)
Definition same_cells3 {V} (dom : domain V) (c x : list V) : Prop :=
  exists u, holds_inside3 dom c u /\ vec_holds3 dom x u.
Definition same_cells2 {V} (dom : domain V) (c x : list V) : Prop :=
  exists u, holds_inside2 dom c u /\ vec_holds2 dom x u.

(** The same outcome; two normal results are related by P. *)
Definition same_outcome {A B} (P : A -> B -> Prop) (a : res A) (b : res B) : Prop :=
  match a, b with
  | Ok x, Ok y => P x y
  | UB, UB => True
  | Fatal, Fatal => True
  | Throw, Throw => True
  | _, _ => False
  end.

(** The ideal program: the right-hand side and the values of the Jacobian are functions of
    the vector they are asked for, and the observers look at the vector asked for last and at
    its right-hand side. *)
Record iworld (V O : Type) : Type := { iw_sol : list V; iw_res : list V; iw_obs : O }.
Arguments iw_sol {V O}.
Arguments iw_res {V O}.
Arguments iw_obs {V O}.

Section Ideal.
  Context {V O : Type}.
  Variables (F : V -> list V -> list V) (G : list V -> list V)
    (notify : event -> Z -> V -> V -> list V -> list V -> O -> res O) (post : O -> res bool).
  Local Open Scope res_scope.

  Fixpoint ideal_ts (p : ts_prog V) (i : iworld V O) : res (iworld V O * list V) :=
    match p with
    | TsDone x => Ok (i, x)
    | TsRhs t x out k => ideal_ts (k (F t x)) {| iw_sol := x; iw_res := F t x; iw_obs := iw_obs i |}
    | TsJac t x vals k => ideal_ts (k (G x)) {| iw_sol := x; iw_res := iw_res i; iw_obs := iw_obs i |}
    | TsPre k => ideal_ts k i
    | TsPost k => b <- post (iw_obs i) ;; ideal_ts (k b) i
    | TsMon step time dt v k =>
        o <- notify TimeStepComplete step time dt (iw_sol i) (iw_res i) (iw_obs i) ;;
        o <- notify SolutionUpdate step time dt (iw_sol i) (iw_res i) o ;;
        ideal_ts k {| iw_sol := iw_sol i; iw_res := iw_res i; iw_obs := o |}
    end.
End Ideal.

(** A time stepper for vectors of n numbers and matrices with m stored values: all vectors
    it passes and leaves have these lengths.  It asks for a Jacobian only if [jac] holds, and
    only at the vector it has asked the right-hand side for last ([last]). *)
Fixpoint ts_fits {V} (n m : Z) (jac : Prop) (last : option (list V)) (p : ts_prog V) : Prop :=
  match p with
  | TsDone x => zlen x = n
  | TsRhs t x out k => zlen x = n /\ zlen out = n /\ forall y, zlen y = n -> ts_fits n m jac (Some x) (k y)
  | TsJac t x vals k =>
      jac /\ last = Some x /\ zlen vals = m /\ forall y, zlen y = m -> ts_fits n m jac last (k y)
  | TsPre k => ts_fits n m jac last k
  | TsPost k => forall b, ts_fits n m jac last (k b)
  | TsMon step time dt v k => ts_fits n m jac last k
  end.

(** A time stepper for vectors of n numbers that asks for a Jacobian before it reports a step or ends, as implicit
    methods do. *)
Fixpoint asks_jacobian {V} (n : Z) (p : ts_prog V) : Prop :=
  match p with
  | TsRhs t x out k => zlen x = n /\ zlen out = n /\ forall y, zlen y = n -> asks_jacobian n (k y)
  | TsJac t x vals k => zlen x = n
  | TsPre k => asks_jacobian n k
  | _ => False
  end.

(** The observers read the interior cells of the states, nothing else of them. *)
Definition reads_cells3 {V O} (dom : domain V) (notify : event -> Z -> V -> V -> state V -> state V -> O -> res O)
    (notify' : event -> Z -> V -> V -> list V -> list V -> O -> res O) : Prop :=
  forall e step time dt c r x y o, same_cells3 dom c x -> same_cells3 dom r y ->
  notify e step time dt [c] [r] o = notify' e step time dt x y o.
Definition reads_cells2 {V O} (dom : domain V) (notify : event -> Z -> V -> V -> state V -> state V -> O -> res O)
    (notify' : event -> Z -> V -> V -> list V -> list V -> O -> res O) : Prop :=
  forall e step time dt c r x y o, same_cells2 dom c x -> same_cells2 dom r y ->
  notify e step time dt [c] [r] o = notify' e step time dt x y o.

(** Whatever the time stepper is and whatever the storage of the program contains before: it
    behaves as against the ideal program with F and G.  It ends in the same way, and after a
    normal end the solution state contains the vector it left, the residual state the last
    right-hand side, and observers and logger have seen the same. *)
Definition solves_like3 {V} `{N : Num V} (dom : domain V) (d : disc3 V) (variant : Z) (p : ch_params V) (A : csr V)
    (F : V -> list V -> list V) (G : list V -> list V) : Prop :=
  forall (O : Type) (notify : event -> Z -> V -> V -> state V -> state V -> O -> res O)
    (notify' : event -> Z -> V -> V -> list V -> list V -> O -> res O) (mon : O -> list (string * V))
    (abs_tol rel_tol : V) (sc : scratch V) (c r x y : list V) (o : O) (ts : list V -> ts_prog V),
  reads_cells3 dom notify notify' -> scratch_fits (cells3 dom) sc -> same_cells3 dom c x -> same_cells3 dom r y ->
  ts_fits (nx dom * ny dom * nz dom) (zlen (m_vals A)) (create_matrix d = Ok A) None (ts x) ->
  same_outcome (fun w a =>
      (exists c', pw_sol w = [c'] /\ same_cells3 dom c' (snd a)) /\
      (exists r', pw_res w = [r'] /\ same_cells3 dom r' (iw_res (fst a))) /\ pw_obs w = iw_obs (fst a))
    (petsc_run (deps3 d variant p notify mon abs_tol rel_tol) (nx dom * ny dom * nz dom) ts
       {| pw_sc := sc; pw_sol := [c]; pw_res := [r]; pw_jac := A; pw_obs := o |})
    (ideal_ts F G notify' (fun o => petsc_post_step abs_tol rel_tol (mon o)) (ts x)
       {| iw_sol := x; iw_res := y; iw_obs := o |}).

Definition solves_like2 {V} `{N : Num V} (dom : domain V) (d : disc2 V) (p : ch_params V)
    (F : V -> list V -> list V) : Prop :=
  forall (O : Type) (notify : event -> Z -> V -> V -> state V -> state V -> O -> res O)
    (notify' : event -> Z -> V -> V -> list V -> list V -> O -> res O) (mon : O -> list (string * V))
    (abs_tol rel_tol : V) (sc : scratch V) (c r x y : list V) (A : csr V) (o : O) (ts : list V -> ts_prog V),
  reads_cells2 dom notify notify' -> scratch_fits (cells2 dom) sc -> same_cells2 dom c x -> same_cells2 dom r y ->
  ts_fits (nx dom * nx dom) 0 False None (ts x) ->
  same_outcome (fun w a =>
      (exists c', pw_sol w = [c'] /\ same_cells2 dom c' (snd a)) /\
      (exists r', pw_res w = [r'] /\ same_cells2 dom r' (iw_res (fst a))) /\ pw_obs w = iw_obs (fst a))
    (petsc_run (deps2 d p notify mon abs_tol rel_tol) (nx dom * nx dom) ts
       {| pw_sc := sc; pw_sol := [c]; pw_res := [r]; pw_jac := A; pw_obs := o |})
    (ideal_ts F (fun x => x) notify' (fun o => petsc_post_step abs_tol rel_tol (mon o)) (ts x)
       {| iw_sol := x; iw_res := y; iw_obs := o |}).

(** ** Linear methods

    Vector x is x0 plus a linear combination of the vectors ys. *)
Definition entry (l : list R) (q : Z) : R := match zget l q with Some v => v | None => 0%R end.
Definition combination (x0 : list R) (ys : list (list R)) (x : list R) : Prop :=
  exists cs : list R, length cs = length ys /\
  forall q, (0 <= q < zlen x0)%Z ->
    entry x q = (entry x0 q + Rsum (map (fun t => fst t * entry (snd t) q) (combine cs ys)))%R.

(** The time stepper, started with x0 and having got the right-hand sides ys, leaves x0 plus
    a linear combination of right-hand sides it got.  (Explicit Runge-Kutta and
    multistep methods do; implicit ones do if their equations are solved exactly.  The
    coefficients may depend on everything.) *)
Fixpoint linear_method (x0 : list R) (ys : list (list R)) (p : ts_prog R) : Prop :=
  match p with
  | TsDone x => combination x0 ys x
  | TsRhs t x out k => forall y, zlen y = zlen x0 -> linear_method x0 (y :: ys) (k y)
  | TsJac t x vals k => forall y, linear_method x0 ys (k y)
  | TsPre k => linear_method x0 ys k
  | TsPost k => forall b, linear_method x0 ys (k b)
  | TsMon step time dt v k => linear_method x0 ys k
  end.
