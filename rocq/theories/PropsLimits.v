(** Runs of the whole program whose options name no step limit (max_time_steps 0) or no log frequency (log_frequency 0): C89.

    [madgicart_all pl nsin ncos fuel ...] is the whole program; [madgicart] the same without the implicit integrators and Poisson's equation.  Both are [None] if the
    run makes more than [fuel] steps.  [asks_with m dim ti "none" s rel abs]: the parsed options are the settings s with the integrator ti and the tolerances rel and abs, and no
    restart file.  [usable s] (SpecLimits): the grid has at least two cells in each direction and the kernel variant exists. *)
From Coq Require Import String Reals.
From Verif Require Import ModelLogger ModelOptions Outcome ZList Num ModelDisc3D ModelDisc2D ModelCH ModelTime ModelVTK ModelProgram ModelMG ModelMGCH ModelImplicit
  SpecGrid SpecField SpecTime SpecRestart SpecMon SpecProgram SpecLimits ProgramFinal LimitsFinal.
From Coq Require Import ZArith List.
Local Open Scope string_scope.
Local Open Scope list_scope.
Local Open Scope Z_scope.

(** C89: whatever the other options, the equation, the restart file and the arithmetic, a run with max_time_steps 0 or with log_frequency 0 never ends normally, however many
    steps it is given.  The comment in the code that max_time_steps 0 means no limit is therefore wrong of the program. *)
Theorem C89_never_finishes :
  forall (V : Type) (N : Num V) (pl : platform V) (nsin ncos : V -> V) (fuel : nat) (fs : string -> option string) (vts : string -> list xml)
    (other : members V -> option (res (pworld V))) (args : list string) (opts m : members V) (vm : vmap V) (ti : string),
  parse_options (pl_read pl) (pl_lit pl) (pl_eps100 pl) (pl_max100 pl) fs args opts = Ok (Running m vm) ->
  m "time_integrator" = VString ti -> In ti ["rk3ssp"; "ode23"; "bdf1"; "steady"] ->
  m "log_frequency" = VInt 0 \/ m "max_time_steps" = VUnsigned 0 ->
  forall e, madgicart_all pl nsin ncos fuel fs vts other args opts <> Some (Ok e).
Proof. exact pf_C89_never_finishes. Qed.
Print Assumptions C89_never_finishes.

Example C89_never_finishes_ex :
  exists m vm, parse_options (pl_read ex_platform) (pl_lit ex_platform) (pl_eps100 ex_platform) (pl_max100 ex_platform) ex_none
     (ex_args "3" "steady" "4" "0" "20") ex_members = Ok (Running m vm) /\ m "time_integrator" = VString "steady" /\ m "max_time_steps" = VUnsigned 0.
Proof. exact li_never. Qed.

(** C89, max_time_steps 0 with rk3ssp or ode23: the only outcome is undefined behaviour (the number of digits of the step limit is the integer part of the logarithm of zero), unless the
    run has not ended within [fuel] steps.  If solution files are saved it is the first step that has it. *)
Theorem C89_no_limit :
  forall (V : Type) (N : Num V) (pl : platform V) (fuel : nat) (fs : string -> option string) (vts : string -> list xml)
    (other : members V -> option (res (pworld V))) (args : list string) (opts m : members V) (vm : vmap V) (s : settings V) (rel abs : V)
    (bx by_ bz : bctype) (dim : Z) (ti : string),
  parse_options (pl_read pl) (pl_lit pl) (pl_eps100 pl) (pl_max100 pl) fs args opts = Ok (Running m vm) ->
  asks_with m dim ti "none" s rel abs -> dim = 2 \/ dim = 3 -> ti = "rk3ssp" \/ ti = "ode23" ->
  usable s -> bc_named (s_bc_x s) bx -> bc_named (s_bc_y s) by_ -> bc_named (s_bc_z s) bz ->
  s_max_steps s = 0 ->
  (madgicart pl fuel fs vts other args opts = None \/ madgicart pl fuel fs vts other args opts = Some UB) /\
  (s_save_every s <> 0 -> (0 < fuel)%nat -> madgicart pl fuel fs vts other args opts = Some UB).
Proof. exact pf_C89_no_limit. Qed.
Print Assumptions C89_no_limit.

Example C89_no_limit_ex :
  (exists m vm, parse_options (pl_read ex_platform) (pl_lit ex_platform) (pl_eps100 ex_platform) (pl_max100 ex_platform) ex_none
     (ex_args "3" "rk3ssp" "4" "0" "20") ex_members = Ok (Running m vm) /\ asks_with m 3 "rk3ssp" "none" (ex_settings 4 0 20) (nint 0) (nint 0)) /\
  (exists m vm, parse_options (pl_read ex_platform) (pl_lit ex_platform) (pl_eps100 ex_platform) (pl_max100 ex_platform) ex_none
     (ex_args "2" "ode23" "4" "0" "20") ex_members = Ok (Running m vm) /\ asks_with m 2 "ode23" "none" (ex_settings 4 0 20) (nint 0) (nint 0)) /\
  usable (ex_settings 4 0 20) /\ usable (ex_settings 4 100 0) /\ bc_named "periodic" Periodic.
Proof. exact (conj li_no_limit (conj li_no_limit_2d li_usable)). Qed.

(** C89, log_frequency 0 with rk3ssp or ode23: the first step has undefined behaviour (the remainder by zero). *)
Theorem C89_no_log :
  forall (V : Type) (N : Num V) (pl : platform V) (fuel : nat) (fs : string -> option string) (vts : string -> list xml)
    (other : members V -> option (res (pworld V))) (args : list string) (opts m : members V) (vm : vmap V) (s : settings V) (rel abs : V)
    (bx by_ bz : bctype) (dim : Z) (ti : string),
  parse_options (pl_read pl) (pl_lit pl) (pl_eps100 pl) (pl_max100 pl) fs args opts = Ok (Running m vm) ->
  asks_with m dim ti "none" s rel abs -> dim = 2 \/ dim = 3 -> ti = "rk3ssp" \/ ti = "ode23" ->
  usable s -> bc_named (s_bc_x s) bx -> bc_named (s_bc_y s) by_ -> bc_named (s_bc_z s) bz ->
  s_log_every s = 0 -> (0 < fuel)%nat ->
  madgicart pl fuel fs vts other args opts = Some UB.
Proof. exact pf_C89_no_log. Qed.
Print Assumptions C89_no_log.

Example C89_no_log_ex :
  (exists m vm, parse_options (pl_read ex_platform) (pl_lit ex_platform) (pl_eps100 ex_platform) (pl_max100 ex_platform) ex_none
     (ex_args "3" "ode23" "4" "100" "0") ex_members = Ok (Running m vm) /\ asks_with m 3 "ode23" "none" (ex_settings 4 100 0) (nint 0) (nint 0)) /\
  (exists m vm, parse_options (pl_read ex_platform) (pl_lit ex_platform) (pl_eps100 ex_platform) (pl_max100 ex_platform) ex_none
     (ex_args "2" "rk3ssp" "4" "100" "0") ex_members = Ok (Running m vm) /\ asks_with m 2 "rk3ssp" "none" (ex_settings 4 100 0) (nint 0) (nint 0)) /\
  usable (ex_settings 4 0 20) /\ usable (ex_settings 4 100 0) /\ bc_named "periodic" Periodic.
Proof. exact (conj li_no_log (conj li_no_log_2d li_usable)). Qed.
