(** What the program refuses, and how it ends then: C80.

    [madgicart pl fuel ...] is the whole program, [fuel] the number of steps it may make: an ending that is the same for every [fuel],
    also for zero, comes before the first step.  [Quit c]: the program exits with code c.  [Throw]: it ends with an exception that nobody
    catches; [Fatal]: with a fatal message and abort; [UB]: undefined behaviour.  [requests m q r] (SpecReject) says which of the options that select the problem the
    user asked for, [unknown q] and [unsupported q] what is wrong with them. *)
From Coq Require Import String Reals QArith.
From Verif Require Import ModelLogger ModelOptions Outcome ZList Num ModelDisc3D ModelDisc2D ModelTime ModelVTK ModelProgram SpecGrid SpecOptions SpecProgram SpecReject
  ExampleNum ProgramFinal RerunFinal EarlyFinal RejectFinal.
From Coq Require Import ZArith List.
Local Open Scope string_scope.
Local Open Scope list_scope.
Local Open Scope Z_scope.

(** C80, any arithmetic: with a boundary type, number of dimensions, equation or 3D kernel the program does not know, it ends with a fatal
    message; otherwise, with Poisson's equation in 2D or an integrator it does not know, with an exception; in both cases before the first step. *)
Theorem C80_rejected :
  forall (V : Type) (N : Num V) (pl : platform V) (fuel : nat) (fs : string -> option string) (vts : string -> list xml)
    (other : members V -> option (res (pworld V))) (args : list string) (opts m : members V) (vm : vmap V) (q : request),
  parse_options (pl_read pl) (pl_lit pl) (pl_eps100 pl) (pl_max100 pl) fs args opts = Ok (Running m vm) ->
  unset (base_opts (pl_lit pl) (pl_eps100 pl) (pl_max100 pl)) opts ->
  requests m q "none" -> 1 <= q_nx q -> 1 <= q_ny q -> 1 <= q_nz q ->
  (unknown q -> madgicart pl fuel fs vts other args opts = Some Fatal) /\
  (~ unknown q -> unsupported q -> madgicart pl fuel fs vts other args opts = Some Throw).
Proof. exact pf_C80_rejected. Qed.
Print Assumptions C80_rejected.

Example C80_rejected_ex :
  (exists m vm, ex_parsed (re_args "3" "1" "cahn-hilliard" "rk3ssp" "walls" "0") = Ok (Running m vm) /\
    requests m (re_request 3 1 "cahn-hilliard" "rk3ssp" "walls") "none") /\
  unknown (re_request 3 1 "cahn-hilliard" "rk3ssp" "walls") /\
  (exists m vm, ex_parsed (re_args "3" "1" "cahn-hilliard" "euler" "neumann" "0") = Ok (Running m vm) /\
    requests m (re_request 3 1 "cahn-hilliard" "euler" "neumann") "none") /\
  (~ unknown (re_request 3 1 "cahn-hilliard" "euler" "neumann") /\ unsupported (re_request 3 1 "cahn-hilliard" "euler" "neumann")) /\
  unset (base_opts (pl_lit ex_platform) (pl_eps100 ex_platform) (pl_max100 ex_platform)) ex_members.
Proof. exact (conj re_walls (conj re_walls_unknown (conj re_euler (conj re_euler_unsupported re_unset)))). Qed.

(** C80: a time step from a CFL number is documented as an option but refused by both explicit integrators, with a fatal message and
    before the first step. *)
Theorem C80_cfl :
  forall (V : Type) (N : Num V) (pl : platform V) (fuel : nat) (fs : string -> option string) (vts : string -> list xml)
    (other : members V -> option (res (pworld V))) (args : list string) (opts m : members V) (vm : vmap V) (q : request),
  parse_options (pl_read pl) (pl_lit pl) (pl_eps100 pl) (pl_max100 pl) fs args opts = Ok (Running m vm) ->
  unset (base_opts (pl_lit pl) (pl_eps100 pl) (pl_max100 pl)) opts ->
  requests m q "none" -> 1 <= q_nx q -> 1 <= q_ny q -> 1 <= q_nz q -> ~ unknown q ->
  q_equation q = "cahn-hilliard" -> q_integrator q = "rk3ssp" \/ q_integrator q = "ode23" ->
  m "use_cfl_time_step" = VBool true ->
  madgicart pl fuel fs vts other args opts = Some Fatal.
Proof. exact pf_C80_cfl. Qed.
Print Assumptions C80_cfl.

Example C80_cfl_ex :
  (exists m vm, ex_parsed (re_args "2" "1" "cahn-hilliard" "ode23" "neumann" "1") = Ok (Running m vm) /\
    requests m (re_request 2 1 "cahn-hilliard" "ode23" "neumann") "none" /\ m "use_cfl_time_step" = VBool true) /\
  ~ unknown (re_request 2 1 "cahn-hilliard" "ode23" "neumann").
Proof. exact (conj re_cfl re_cfl_known). Qed.

(** C80: what the command line alone decides.  With --help the program exits with code 0, with the name of a configuration file that cannot be
    opened with code 1; an unknown or ambiguous option, an option given twice or with a text that is not a value of its type ends it
    with an exception. *)
Theorem C80_command_line :
  forall (V : Type) (N : Num V) (pl : platform V) (fuel : nat) (fs : string -> option string) (vts : string -> list xml)
    (other : members V -> option (res (pworld V))) (items : list item) (cmd : list (string * string)) (opts : members V),
  let table := base_opts (pl_lit pl) (pl_eps100 pl) (pl_max100 pl) in
  Forall2 (fun i nv => item_sets table i (fst nv) (snd nv)) items cmd ->
  (forall s, pl_read pl s = Throw \/ exists v, pl_read pl s = Ok v) ->
  (NoDup (map fst cmd) -> (forall n v, In (n, v) cmd -> exists x, accepts table (pl_read pl) n v x) ->
   forall f, opened cmd opts f -> fs f = None ->
     (In "help" (map fst cmd) -> madgicart pl fuel fs vts other (flat_map item_args items) opts = Some (Ok (Quit 0))) /\
     (~ In "help" (map fst cmd) -> f <> "" -> madgicart pl fuel fs vts other (flat_map item_args items) opts = Some (Ok (Quit 1)))) /\
  (~ NoDup (map fst cmd) \/ (exists n v, In (n, v) cmd /\ forall x, ~ accepts table (pl_read pl) n v x) ->
   madgicart pl fuel fs vts other (flat_map item_args items) opts = Some Throw) /\
  (forall n v rest, stands_for_none table n -> v <> "" ->
   madgicart pl fuel fs vts other (flat_map item_args items ++ [("--" ++ n)%string] ++ rest) opts = Some Throw /\
   madgicart pl fuel fs vts other (flat_map item_args items ++ [("--" ++ n ++ "=" ++ v)%string] ++ rest) opts = Some Throw).
Proof. exact pf_C80_command_line. Qed.
Print Assumptions C80_command_line.

Example C80_command_line_ex :
  Forall2 (fun i nv => item_sets re_table i (fst nv) (snd nv)) [Help; FileName "nofile"] [("help", ""); ("config_file", "nofile")] /\
  (forall s, pl_read ex_platform s = Throw \/ exists v, pl_read ex_platform s = Ok v) /\
  madgicart ex_platform 0 ex_none (fun _ => []) ea_other ["--help"; "nofile"] ex_members = Some (Ok (Quit 0)) /\
  madgicart ex_platform 0 ex_none (fun _ => []) ea_other ["nofile"] ex_members = Some (Ok (Quit 1)) /\
  madgicart ex_platform 0 ex_none (fun _ => []) ea_other ["nofile"; "--iterations=3"] ex_members = Some Throw.
Proof. exact (conj re_items (conj re_reads (conj re_quit0 (conj re_quit1 re_iterations)))). Qed.

(** C80: a run in 2D does not accept the solution file of a 3D run, whatever the other options: it does not end normally and makes no step. *)
Theorem C80_restart_3d_in_2d :
  forall (V : Type) (N : Num V) (pl : platform V) (fuel : nat) (fs : string -> option string) (vts : string -> list xml)
    (other : members V -> option (res (pworld V))) (args : list string) (opts m : members V) (vm : vmap V)
    (r ti : string) (dom0 : domain V) (i : Z) (t dt : V) (u : Z -> Z -> Z -> V),
  parse_options (pl_read pl) (pl_lit pl) (pl_eps100 pl) (pl_max100 pl) fs args opts = Ok (Running m vm) ->
  unset (base_opts (pl_lit pl) (pl_eps100 pl) (pl_max100 pl)) opts ->
  given m [("dimension", VInt 2); ("equation_type", VString "cahn-hilliard"); ("time_integrator", VString ti); ("initial_condition_file", VString r)] ->
  ti = "rk3ssp" \/ ti = "ode23" -> r <> "none" ->
  is_file3 pl dom0 i t dt u (vts r) -> readable3 pl dom0 t dt u -> valid_domain3 dom0 ->
  nx dom0 <= 2147483647 -> ny dom0 <= 2147483647 -> nz dom0 <= 2147483647 ->
  exists e, madgicart pl fuel fs vts other args opts = Some e /\ forall a, e <> Ok a.
Proof. exact pf_C80_restart_3d_in_2d. Qed.
Print Assumptions C80_restart_3d_in_2d.

Example C80_restart_3d_in_2d_ex :
  (exists m vm, parse_options (pl_read ea_platform) (pl_lit ea_platform) (pl_eps100 ea_platform) (pl_max100 ea_platform) ex_none
    (re_restart_args "2") ex_members = Ok (Running m vm) /\
  given m [("dimension", VInt 2); ("equation_type", VString "cahn-hilliard"); ("time_integrator", VString "rk3ssp"); ("initial_condition_file", VString "old")]) /\
  unset (base_opts (pl_lit ea_platform) (pl_eps100 ea_platform) (pl_max100 ea_platform)) ex_members /\
  is_file3 ea_platform rr_dom3 12 4%R 1%R (ea_field3 27) (ea_doc3 27) /\ readable3 ea_platform rr_dom3 4%R 1%R (ea_field3 27) /\ valid_domain3 rr_dom3.
Proof. exact (conj re_restart2 (conj re_unset_ea (conj (ea_file3 27) (conj (ea_readable3 27 ea_27) rr_valid3)))). Qed.

(** C80: and a run in 3D does not accept that of a 2D run. *)
Theorem C80_restart_2d_in_3d :
  forall (V : Type) (N : Num V) (pl : platform V) (fuel : nat) (fs : string -> option string) (vts : string -> list xml)
    (other : members V -> option (res (pworld V))) (args : list string) (opts m : members V) (vm : vmap V)
    (r ti : string) (dom0 : domain V) (i : Z) (t dt zero : V) (u : Z -> Z -> V),
  parse_options (pl_read pl) (pl_lit pl) (pl_eps100 pl) (pl_max100 pl) fs args opts = Ok (Running m vm) ->
  unset (base_opts (pl_lit pl) (pl_eps100 pl) (pl_max100 pl)) opts ->
  given m [("dimension", VInt 3); ("equation_type", VString "cahn-hilliard"); ("time_integrator", VString ti); ("initial_condition_file", VString r)] ->
  ti = "rk3ssp" \/ ti = "ode23" -> r <> "none" ->
  is_file2 pl dom0 i t dt u (vts r) -> readable2 pl dom0 t dt u -> pl_read pl "0.0" = Ok zero -> valid_domain2 dom0 -> nx dom0 <= 2147483647 ->
  exists e, madgicart pl fuel fs vts other args opts = Some e /\ forall a, e <> Ok a.
Proof. exact pf_C80_restart_2d_in_3d. Qed.
Print Assumptions C80_restart_2d_in_3d.

Example C80_restart_2d_in_3d_ex :
  (exists m vm, parse_options (pl_read ea_platform) (pl_lit ea_platform) (pl_eps100 ea_platform) (pl_max100 ea_platform) ex_none
    (re_restart_args "3") ex_members = Ok (Running m vm) /\
  given m [("dimension", VInt 3); ("equation_type", VString "cahn-hilliard"); ("time_integrator", VString "rk3ssp"); ("initial_condition_file", VString "old")]) /\
  unset (base_opts (pl_lit ea_platform) (pl_eps100 ea_platform) (pl_max100 ea_platform)) ex_members /\
  is_file2 ea_platform rr_dom2 12 4%R 1%R (ea_field2 27) (ea_doc2 27) /\ readable2 ea_platform rr_dom2 4%R 1%R (ea_field2 27) /\
  (exists z, pl_read ea_platform "0.0" = Ok z) /\ valid_domain2 rr_dom2.
Proof. exact (conj re_restart3 (conj re_unset_ea (conj (ea_file2 27) (conj (ea_readable2 27 ea_27) (conj re_zero rr_valid2))))). Qed.

(** C80, where the program does not refuse what it should.  A grid with no cells in x is a division by zero. *)
Theorem C80_no_cells_refuted :
  forall (V : Type) (N : Num V) (pl : platform V) (fuel : nat) (fs : string -> option string) (vts : string -> list xml)
    (other : members V -> option (res (pworld V))) (args : list string) (opts m : members V) (vm : vmap V) (q : request),
  parse_options (pl_read pl) (pl_lit pl) (pl_eps100 pl) (pl_max100 pl) fs args opts = Ok (Running m vm) ->
  unset (base_opts (pl_lit pl) (pl_eps100 pl) (pl_max100 pl)) opts ->
  requests m q "none" -> q_nx q = 0 ->
  madgicart pl fuel fs vts other args opts = Some UB.
Proof. exact pf_C80_no_cells_refuted. Qed.
Print Assumptions C80_no_cells_refuted.

Example C80_no_cells_refuted_ex :
  exists m vm, ex_parsed (ex_args "2" "rk3ssp" "0" "100" "20") = Ok (Running m vm) /\ requests m re_flat "none".
Proof. exact re_flat_asked. Qed.

(** C80: a restart file that does not exist, or that is not XML, is undefined behaviour (a null pointer is dereferenced). *)
Theorem C80_missing_file_refuted :
  forall (V : Type) (N : Num V) (pl : platform V) (fuel : nat) (fs : string -> option string) (vts : string -> list xml)
    (other : members V -> option (res (pworld V))) (args : list string) (opts m : members V) (vm : vmap V) (r : string),
  parse_options (pl_read pl) (pl_lit pl) (pl_eps100 pl) (pl_max100 pl) fs args opts = Ok (Running m vm) ->
  unset (base_opts (pl_lit pl) (pl_eps100 pl) (pl_max100 pl)) opts ->
  m "initial_condition_file" = VString r -> r <> "none" -> vts r = [] ->
  madgicart pl fuel fs vts other args opts = Some UB.
Proof. exact pf_C80_missing_file_refuted. Qed.
Print Assumptions C80_missing_file_refuted.

Example C80_missing_file_refuted_ex :
  exists m vm, parse_options (pl_read ea_platform) (pl_lit ea_platform) (pl_eps100 ea_platform) (pl_max100 ea_platform) ex_none
    (re_restart_args "3") ex_members = Ok (Running m vm) /\ m "initial_condition_file" = VString "old".
Proof. exact re_missing. Qed.
