(** Parallel loops: [maDGForAll] (/repo/data_structures/exec_includes.hpp:11-61).

    The body of a loop iteration is a program of single loads and stores on the arrays
    captured by the lambda.  Arrays of reals are cells of the kernel memory; index
    arrays (interior lists, CSR structure) are never written by a kernel and are plain
    Gallina lists captured by the body. *)
From Verif Require Import Outcome ZList.

Section Kernel.
  Context {V : Type}.

  Inductive prog : Type :=
  | Done
  | Bad                                       (* undefined behaviour in the body itself *)
  | Rd (a : nat) (i : Z) (k : V -> prog)      (* load cell i of array a *)
  | Wr (a : nat) (i : Z) (v : V) (p : prog).  (* store v to cell i of array a *)

  (** The captured arrays, in the order the kernel names them. *)
  Definition mem : Type := list (list V).

  Definition mread (m : mem) (a : nat) (i : Z) : option V :=
    match nth_error m a with Some l => zget l i | None => None end.

  Definition mwrite (m : mem) (a : nat) (i : Z) (v : V) : option mem :=
    match nth_error m a with
    | Some l => match zset l i v with Some l' => Some (upd m a l') | None => None end
    | None => None
    end.

  (** Sequential execution of one iteration. *)
  Fixpoint exec (p : prog) (m : mem) : res mem :=
    match p with
    | Done => Ok m
    | Bad => UB
    | Rd a i k => match mread m a i with Some v => exec (k v) m | None => UB end
    | Wr a i v q => match mwrite m a i v with Some m' => exec q m' | None => UB end
    end.

  (** Iterations one after the other: RAJA's sequential and simd policies. *)
  Fixpoint exec_all (ps : list prog) (m : mem) : res mem :=
    match ps with
    | [] => Ok m
    | p :: ps' => rbind (exec p m) (exec_all ps')
    end.

  (** [maDGForAll(i, lo, hi, body)] run sequentially. *)
  Definition forall_loop (lo hi : Z) (body : Z -> prog) (m : mem) : res mem :=
    exec_all (map body (zrange lo hi)) m.

  (** Sequential composition, for [for] loops inside a body. *)
  Fixpoint pseq (p q : prog) : prog :=
    match p with
    | Done => q
    | Bad => Bad
    | Rd a i k => Rd a i (fun v => pseq (k v) q)
    | Wr a i v p' => Wr a i v (pseq p' q)
    end.

  Definition pseqs (ps : list prog) : prog := fold_right pseq Done ps.

  (** [for (int i = lo; i < hi; ++i) body] inside a body. *)
  Definition pfor (lo hi : Z) (body : Z -> prog) : prog := pseqs (map body (zrange lo hi)).

  (** Interleaving semantics: OpenMP, CUDA and HIP policies.  A configuration holds what
      is left of every iteration, and the memory.  Any iteration may perform its next
      load or store at any time; every assignment of iterations to threads, and every
      chunking, is one of these interleavings. *)
  Inductive pstep : list prog * mem -> list prog * mem -> Prop :=
  | step_rd ps n a i k m v :
      nth_error ps n = Some (Rd a i k) -> mread m a i = Some v ->
      pstep (ps, m) (upd ps n (k v), m)
  | step_wr ps n a i v p m m' :
      nth_error ps n = Some (Wr a i v p) -> mwrite m a i v = Some m' ->
      pstep (ps, m) (upd ps n p, m').

  (** Some iteration is about to do something undefined. *)
  Definition pfault (c : list prog * mem) : Prop :=
    exists n, match nth_error (fst c) n with
              | Some Bad => True
              | Some (Rd a i _) => mread (snd c) a i = None
              | Some (Wr a i v _) => mwrite (snd c) a i v = None
              | _ => False
              end.

  Inductive psteps : list prog * mem -> list prog * mem -> Prop :=
  | psteps_refl c : psteps c c
  | psteps_cons c1 c2 c3 : pstep c1 c2 -> psteps c2 c3 -> psteps c1 c3.

  Definition pdone (ps : list prog) : Prop := forall p, In p ps -> p = Done.

  (** The loop, started on m, can finish with memory m' under some schedule. *)
  Definition par_result (ps : list prog) (m m' : mem) : Prop :=
    exists qs, psteps (ps, m) (qs, m') /\ pdone qs.

  (** The loop, started on m, can run into undefined behaviour under some schedule. *)
  Definition par_fault (ps : list prog) (m : mem) : Prop :=
    exists c, psteps (ps, m) c /\ pfault c.

  (** [uses R W p]: whatever values it loads, p loads only cells in R, stores only to
      cells in W, and does nothing undefined by itself. *)
  Inductive uses (R W : nat -> Z -> Prop) : prog -> Prop :=
  | uses_done : uses R W Done
  | uses_rd a i k : R a i -> (forall v, uses R W (k v)) -> uses R W (Rd a i k)
  | uses_wr a i v p : W a i -> uses R W p -> uses R W (Wr a i v p).

End Kernel.

Arguments prog V : clear implicits.
Arguments mem V : clear implicits.

Declare Scope prog_scope.
Delimit Scope prog_scope with prog.
Notation "'load' x <- a .[ i ] ; p" := (Rd a i (fun x => p))
  (at level 200, x name, a at level 0, i at level 99, p at level 200, right associativity) : prog_scope.
Notation "'store' a .[ i ] <- v ; p" := (Wr a i v p)
  (at level 200, a at level 0, i at level 99, v at level 99, p at level 200, right associativity) : prog_scope.
