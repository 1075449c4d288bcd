(** Vocabulary for the time-stepping properties. *)
From Verif Require Import Outcome ZList Num ModelTime.
From Coq Require Import Reals.
Local Open Scope Z_scope.

Section Spec.
  Context {V : Type}.

  (** s has nv arrays of the given size. *)
  Definition shaped (nv : nat) (size : Z) (s : state V) : Prop :=
    length s = nv /\ forall e a, nth_error s e = Some a -> zlen a = size.

  (** The cell i of array e. *)
  Definition cell (s : state V) (e : nat) (i : Z) : option V :=
    match nth_error s e with Some a => zget a i | None => None end.

  (** On the cells in P, array e of s holds the values u e. *)
  Definition state_holds (nv : nat) (size : Z) (P : Z -> Prop) (s : state V) (u : nat -> Z -> V) : Prop :=
    shaped nv size s /\
    forall e i, (e < nv)%nat -> 0 <= i < size -> P i -> cell s e i = Some (u e i).

  (** The right-hand side object computes the function f of time and of the values on the
      cells in P: from any state holding u there, and whatever the other cells, the output
      and the object's own storage (subject to [ok]) contain, it leaves u in place and
      writes f t u.  Cells outside P may end up with anything. *)
  Definition computes {S} (eval : rhs_fun V S) (ok : S -> Prop) (nv : nat) (size : Z) (P : Z -> Prop)
      (f : V -> (nat -> Z -> V) -> nat -> Z -> V) : Prop :=
    forall sc s t r u, ok sc -> state_holds nv size P s u -> shaped nv size r ->
    exists sc' s' r', eval sc s t r = Ok (sc', s', r') /\ ok sc' /\
      state_holds nv size P s' u /\ state_holds nv size P r' (f t u).
End Spec.

(** One step of the third-order strong-stability-preserving method in the convex form of
    Shu and Osher. *)
Definition shu_osher {I J : Type} (f : R -> (I -> J -> R) -> I -> J -> R) (t dt : R) (u : I -> J -> R)
  : I -> J -> R :=
  let u1 := fun e i => (u e i + dt * f t u e i)%R in
  let u2 := fun e i => (3 / 4 * u e i + 1 / 4 * (u1 e i + dt * f (t + dt) u1 e i))%R in
  fun e i => (1 / 3 * u e i + 2 / 3 * (u2 e i + dt * f (t + dt / 2) u2 e i))%R.

(** One step of the Bogacki-Shampine method. *)
Definition bs_k1 {I J : Type} (f : R -> (I -> J -> R) -> I -> J -> R) (t : R) (u : I -> J -> R) := f t u.
Definition bs_k2 {I J : Type} (f : R -> (I -> J -> R) -> I -> J -> R) (t dt : R) (u : I -> J -> R) :=
  f (t + dt / 2)%R (fun e i => u e i + dt / 2 * bs_k1 f t u e i)%R.
Definition bs_k3 {I J : Type} (f : R -> (I -> J -> R) -> I -> J -> R) (t dt : R) (u : I -> J -> R) :=
  f (t + 3 / 4 * dt)%R (fun e i => u e i + 3 / 4 * dt * bs_k2 f t dt u e i)%R.
Definition bogacki_shampine {I J : Type} (f : R -> (I -> J -> R) -> I -> J -> R) (t dt : R)
    (u : I -> J -> R) : I -> J -> R :=
  fun e i => (u e i + dt * (2 / 9 * bs_k1 f t u e i + 1 / 3 * bs_k2 f t dt u e i
                            + 4 / 9 * bs_k3 f t dt u e i))%R.

(** The embedded second-order solution of the same method. *)
Definition bs_embedded {I J : Type} (f : R -> (I -> J -> R) -> I -> J -> R) (t dt : R)
    (u : I -> J -> R) : I -> J -> R :=
  fun e i => (u e i + dt * (7 / 24 * bs_k1 f t u e i + 1 / 4 * bs_k2 f t dt u e i
                            + 1 / 3 * bs_k3 f t dt u e i
                            + 1 / 8 * f (t + dt) (bogacki_shampine f t dt u) e i))%R.

(** The first entry of a monitor under the given name has value v. *)
Definition reported {V} (name : String.string) (m : list (String.string * V)) (v : V) : Prop :=
  exists l1 l2, m = l1 ++ (name, v) :: l2 /\ ~ In name (map fst l1).

(** Consecutive entries of a list. *)
Definition follows {A} (l : list A) (x y : A) : Prop := exists l1 l2, l = l1 ++ x :: y :: l2.

(** Observers are ready for n more notifications: every event that has observers has a
    non-zero frequency and its counter stays within int. *)
Definition obs_ready {L} (o : ModelObs.observable L) (n : Z) : Prop :=
  forall e l, ModelObs.o_observers o e = Some l ->
    ModelObs.o_freq o e <> 0 /\ ModelObs.o_count o e + n <= ModelObs.INT_MAX.

Section Control.
  Context {V : Type} `{N : Num V}.

  (** Feeding the controller a sequence of error estimates and current steps. *)
  Fixpoint pid_run (pow : V -> V -> V) (p : pid V) (fed : list (V * V)) : res (list V) :=
    match fed with
    | [] => Ok []
    | (e, s) :: fed' =>
        match adapt_step pow p e s with
        | Ok (p', st) =>
            match pid_run pow p' fed' with Ok l => Ok (st :: l) | UB => UB | Fatal => Fatal | Throw => Throw end
        | UB => UB | Fatal => Fatal | Throw => Throw
        end
    end.

  (** The steps of a run: the step answered by the controller is the next current step. *)
  Fixpoint controlled (pow : V -> V -> V) (p : pid V) (s : V) (errs : list V) : res (list V) :=
    match errs with
    | [] => Ok [s]
    | e :: errs' =>
        match adapt_step pow p e s with
        | Ok (p', s') =>
            match controlled pow p' s' errs' with Ok l => Ok (s :: l) | UB => UB | Fatal => Fatal | Throw => Throw end
        | UB => UB | Fatal => Fatal | Throw => Throw
        end
    end.
End Control.

(** Successive steps of sizes dts from time t: everything a step method leaves. *)
Fixpoint run_steps {V X} `{N : Num V} (do_step : X -> V -> V -> res X) (x : X) (t : V) (dts : list V)
  : res (list X) :=
  match dts with
  | [] => Ok []
  | d :: ds =>
      match do_step x t d with
      | Ok x' =>
          match run_steps do_step x' (nadd t d) ds with
          | Ok l => Ok (x' :: l) | UB => UB | Fatal => Fatal | Throw => Throw
          end
      | UB => UB | Fatal => Fatal | Throw => Throw
      end
  end.

(** The cells outside P are zero in every array of s. *)
Definition zero_off {V} `{N : Num V} (nv : nat) (size : Z) (P : Z -> Prop) (s : state V) : Prop :=
  state_holds nv size (fun i => ~ P i) s (fun _ _ => nint 0).

(** The right-hand side object leaves the cells outside P at zero if they are zero in the
    output array it is given. *)
Definition keeps_zero {V S} `{N : Num V} (eval : rhs_fun V S) (ok : S -> Prop) (nv : nat) (size : Z)
    (P : Z -> Prop) : Prop :=
  forall sc s t r sc' s' r', ok sc -> shaped nv size s -> zero_off nv size P r ->
    eval sc s t r = Ok (sc', s', r') -> zero_off nv size P r'.

(** The law of the step size controller: s and s' are the current step and the one before it, e,
    e' and e'' the current error estimate and the two before it.  Gains 1/4 (integral), 7/50
    (proportional) and 1/10 (differential) for a method of order 2. *)
Definition pid_law (pow : R -> R -> R) (tol s s' e e' e'' : R) : R :=
  let q := (s / s')%R in
  (s * pow (tol / e) ((1 / 4 + 7 / 50 + 1 / 10 * (2 * q) / (1 + q)) / 2) * pow (e' / tol) ((7 / 50 + 2 * q * (1 / 10)) / 2)
   * pow (tol / e'') (1 / 10 * (2 * q * q) / (1 + q) / 2))%R.
Definition between (a b x : R) : R := Rmax (Rmin x b) a.
Definition kept_error (e : R) : R := Rmax e (1 / 4503599627370496).
