(** Outcomes of model functions.

    The code in /repo can finish normally, run into undefined behaviour, abort through
    [Logger::FatalMessage] (/repo/logger/logger.cpp:204-210, 245-259) or throw a C++
    exception.  The four cases are kept apart. *)

Inductive res (A : Type) : Type :=
| Ok (a : A)   (* normal completion *)
| UB           (* undefined behaviour: out-of-range access, signed overflow, ... *)
| Fatal        (* abort through the logger *)
| Throw.       (* a C++ exception leaves the function *)

Arguments Ok {A} a.
Arguments UB {A}.
Arguments Fatal {A}.
Arguments Throw {A}.

Definition rbind {A B : Type} (x : res A) (f : A -> res B) : res B :=
  match x with
  | Ok a => f a
  | UB => UB
  | Fatal => Fatal
  | Throw => Throw
  end.

(** An unchecked C++ access whose checked counterpart is an option. *)
Definition of_opt {A : Type} (x : option A) : res A :=
  match x with Some a => Ok a | None => UB end.

Declare Scope res_scope.
Delimit Scope res_scope with res.
Notation "x <- e ;; f" := (rbind e (fun x => f))
  (at level 61, e at next level, right associativity) : res_scope.
Notation "' p <- e ;; f" := (rbind e (fun x => match x with p => f end))
  (at level 61, p pattern, e at next level, right associativity) : res_scope.
