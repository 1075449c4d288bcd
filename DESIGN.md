# Formal model of maDGiCart-CH in Rocq (Coq 8.16.1)

## How the code is modelled

* **Outcomes.** A model function returns `res A = Ok a | UB | Fatal | Throw`: undefined
  behaviour (out-of-range access, signed overflow, integer division by zero, use of
  unset data), an abort through `Logger::FatalMessage`/`FatalAssert`, and a thrown
  exception are distinct results, never assumed away.
* **Arrays** are `list V` with bounds-checked access by a `Z` index (`zget`, `zset`).
  A field is the flat storage; cells are reached through the same index formulas
  as in the code.
* **Numbers.** Kernels are written over a record of arithmetic operations `Num V` with
  no laws. Theorems that claim bit-for-bit results are proved for every such record,
  so they hold for IEEE doubles. Algebraic theorems are stated for the instance over
  Coq's reals `R` ("exact arithmetic"). A third instance, IEEE-754 binary64 computed by
  the standard library's `SpecFloat` (no axioms), is used for witnesses about rounding,
  NaN and infinities.
* **Parallel loops.** The body of a `maDGForAll` loop is a program of individual loads
  and stores. It has a sequential semantics and an interleaving semantics in which any
  iteration may perform its next load or store at any time. A general theorem says:
  race-free loops give the sequential result under every interleaving; each kernel is
  shown race-free.
* **External code** (PETSc solvers, RAJA, boost, the random generator, libm) enters as
  parameters of the model, quantified in the theorems.

Files: base (`Outcome`, `ZList`, `Num`, `Kernel`), model (`Model*.v`, with file/line
citations), specifications (`Spec*.v`, readable on their own), proofs (`Proofs*.v`),
property theorems (`Props*.v`: only statements, `exact lemma`, `Print Assumptions`,
satisfiability examples).

## Plan per property

| id | model | proof idea |
|----|-------|-----------|
| C01,C02 | index formulas and inverses | Euclidean division uniqueness |
| C03 | index formulas in checked 32-bit arithmetic | bound every intermediate result |
| C04 | list-building loops of the constructors | characterise membership, NoDup, order, length |
| C05 | coordinate loops over `Num`, at `R` | field arithmetic per cell |
| C06,C07,C08,C09 | boundary kernels as loops of loads/stores | write-once loop lemma, compare to wrap/clamp specification |
| C10 | stencil kernels with checked access | in-bounds by index range; UB witness otherwise |
| C11,C12 | stencils at `R` | `field` per monomial, linearity |
| C13 | interleaving semantics | diamond argument + per-kernel disjoint footprints |
| C14,C15,C16 | sums over interior at `R` | shift invariance of periodic sums, telescoping |
| C17 | RK3/ODE23 steps at `R` with the model right-hand side | invariant by induction over steps |
| C18,C19,C20,C21 | the three right-hand side kernels | pointwise characterisation of each variant, generic `Num` |
| C22 | at `R` | `ring` |
| C23 | at `R` | summation by parts |
| C24,C25,C26 | Jacobian assembly and CSR structure | `derivable_pt_lim` per stencil entry; sortedness/uniqueness of wrapped stencil for n>=5 |
| C27,C28,C29,C30 | multigrid transfers, coarsening | per-cell formulas, reindexing of sums |
| C31-C35 | CSR/LDU kernels | refinement to dense matrix specification |
| C36,C37 | access state machine per array | invariant over access histories |
| C38,C39 | memory manager state machine | invariant over histories |
| C40,C41,C42 | small state machines | induction over histories |
| C43-C47 | time loop with oracle steps | induction/measure on remaining time |
| C48,C49,C50 | RK stages over a module of states, PID controller | algebra at `R`; induction over histories |
| C51-C54 | multigrid cycle over abstract right-hand side/smoother | induction over the cycle's instruction list |
| C55,C56 | writer/reader as token lists | loop order inverse |
| C57 | option store as association list | case analysis, induction |
| C58,C59,C60 | residual/monitor/initial condition functions | induction over histories/fields |
| C61 | at `R` with `sin`, `cos` | trigonometric addition formulas |
| C62,C63 | copies, string functions | list induction |
| C64 | template as text, parsed by the modelled configuration parser | template is a rendering of assignment lines |
| C65 | logger state and boost::log filter/sinks as a state machine over calls | invariant relating the state to the history, by induction on the history |
| C66 | `updateLog` as text | words of the padded columns; counter invariant over histories |
| C67 | profile as an association list, report up to formatting; the hash order and std::sort are parameters | induction over events; permutation and sortedness over R |
| C68 | the time loop, the file writer and reader and the driver's restart path composed | bisimulation of the two loops over `fit` (same interior values, right array sizes) from the one-step lemma of C48 and the round trip of C55 |
| C69 | the factories of `Puppeteer` as functions of options and file | case analysis, using that valid grids are always constructed (C04, C05) |
| C70 | `Puppeteer::run`: the time loop and then the final file (ModelMain `run_program`) | induction on the loop: the choice of the next step sees the limit only in its stop flag; then C68 |
| C71 | PetscRHSFunction, PetscRHSJacobian, PetscTSPostStep, PetscTSMonitor and solve, with TSSolve an arbitrary program that calls them (ModelPetsc `ts_prog`, `run_ts`, `petsc_run`) | refinement: by induction on that program it behaves as against an ideal right-hand side and Jacobian; the ideal ones are the Cahn-Hilliard operator (C21) and its derivative (C24) |
| C72 | main, Puppeteer's constructor and run, composed of the parser (C57), the factories (C69), the loop and integrators (C41-C50), the residual and solution monitors, logger and file writer (ModelProgram `madgicart`) | induction over the time loop with an invariant on fields, logger and file list, one generic loop proof for both explicit integrators; statements in terms of SpecProgram `story3`, `story2`; mean from C14/C16/C60 |
| C73 | the text conversions of solution files on IEEE doubles (ModelDouble `scientific`, `read_double`, over Flocq's `binary_float 53 1024`) | correct rounding in both directions from Flocq's rounding theory; round trip because the 17-digit text is nearer to the double than any midpoint between doubles; SpecDouble defines decimal numbers and rounding without the model's conversions; C55 instantiated at doubles |
| C74 | the same model as C68 at doubles with the conversions of ModelDouble | the Cahn-Hilliard right-hand sides do not read the time, so two solve loops at different times proceed in lockstep while their step sizes agree (induction on the shorter loop); SpecResume defines lockstep; the refutations compute complete runs on doubles |
| C75 | the program of C72 with the reader's answers in place of the options for the grid and the start | the proof of C72 for any grid and start; what the reader returns is C55; two runs of the loop are compared by the suffix of the list of steps; the example runs the program in fixed-point arithmetic |
| C76 | the reductions of C13 and the residual calculator of C58 in any arithmetic on doubles that rounds as IEEE-754 prescribes (SpecAccuracy) | induction over the bracketing; each addition contributes one rounding; zeros added for idle threads are exact; square root by a separate rounding bound |
| C77 | the right-hand sides of C11 and the RK3 step of C41 in such an arithmetic | an expression tree with an error bound proved once by induction; the mean of the exact rate is known from C14; one step's deviation is a recurrence with factor at most 1, summed over the run |
| C78 | PetscEnvironment's constructor, initializePetsc, initializePetscJFNK and initializePetscJacobian as the list of calls they make (ModelPetscSetup); what PETSc's manual says about these calls as a fold over the list (SpecPetscSetup) | induction over the string for its words and over the option list for the database; the final state is computed for each integrator with all values symbolic |
| C79 | the program of C72 and C75 with the tolerances as parameters, and the messages of the tests | the loop of C72 with the step at which it ends as its limit; the residual of the last logged step is that of C58; the refutations follow a uniform field, which decays by a third in each step |
| C80 | the program of C72 up to its first step, for every parsed command line | the parsed options have the types of their table; the set-up is then followed check by check; the restart file of the other dimension has the wrong number of values or coordinates |
| C81 | the text of the two writers, character by character, and the part of tinyxml2's parser that such texts reach | a small grammar of XML (SpecXML); the parser follows every derivation of it; the written text has one |
| C82 | the same parser on every beginning of a written text | what the parser finds in a text it also finds in every longer text, with the rest unread; so success on a beginning would contradict C81 |
| C83 | the reader (ModelVTK) on documents whose two lists of numbers are arbitrary | induction over the lists; the place of a cell in the order of the file is computed for nested loops in general |
| C84 | the whole program with the implicit integrator for the 3D Cahn-Hilliard equation (ModelImplicit: the options, the constructor, the loop and the files around the model of C51 to C54) | the residual and the steps of the smoothers are carried along with the state through the proof of C52; the loop is that of C72, with the steps of the smoothers as a second component of the state |
| C85 | the whole program with Poisson's equation and an explicit integrator (ModelImplicit: the factories of the Poisson equation around the model of C61) | the loop of C72 and C79 with another right-hand side and other initial values; the right-hand side by C61 |
| C86 | the same runs in exact arithmetic | a step of the method is a convex combination of three Euler steps; under the step limit an Euler step obeys a maximum principle, with a parabola in z as the barrier, and 1 - x + x^2/2 - x^3/6 <= exp (-x); the discrete solution exists as the limit of Euler's method, a contraction in the norm weighted with the barrier |
| C87 | the whole program with Poisson's equation and the implicit integrator (ModelImplicit: the multigrid levels of Poisson's equation around the model of C51 to C54 and C61) | the levels have the shape of those of C52, so the proof of C84 carries over; one level: for a linear equation a step of the smoother equals a step of the method of C86, whose maximum principle applies to each |
| C88 | the whole program of C84, C85 and C87, started from a solution file as in C75 | what the file gives (grid, time, values) by the lemmas of C75, the run from there by those of C84, C85 and C87; the difference after an interruption by computing both runs for uniform values, where the equation is an ordinary one |
| C89 | the whole program of C84, C85 and C87 | a run that ends normally has made a step and written its last file: both are undefined with these options; for rk3ssp and ode23 nothing else goes wrong before, by an invariant of the time loop whose callbacks may be undefined but not fatal |
| C90 | the logger of C63-C67, the text of its file (SpecTable) and makeBanner with the machine queries (ModelBanner) | every record is either comment lines only or one line of words, by induction over what is written; the rows of runs from C72 |

## Trusted base

1. **The kernel** of Coq 8.16.1 (`coqc`, re-checked by `coqchk`), including its virtual
   machine for the examples closed with `vm_compute`. No kernel check is switched off, no
   plugin is loaded, and no axiom, `Admitted`, functor or module type is declared here.
2. **Axioms.** Only axioms of Coq's standard library occur. `Print Assumptions` stands
   under every property theorem; its answers fall into these groups.

   * Closed under the global context: C01_addressing_2d, C02_addressing_3d, C03_int32_2d, C03_int32_3d, C04_lists_2d, C04_lists_3d, C06_periodic_2d, C07_periodic_3d, C07_thin_grid_refuted, C08_boundary_fill_3d, C09_fill_idempotent_2d, C09_fill_idempotent_3d, C10_stencil_safety_2d, C10_stencil_safety_3d, C13_fills_2d, C13_fills_3d, C13_jacobian, C13_matrix, C13_operators_2d, C13_operators_3d, C13_rhs_2d, C13_rhs_3d, C13_transfer, C13_vector_updates, C18_rounding_refuted, C18_variants_agree, C20_translation_2d, C20_translation_3d, C24_entries_rounded, C25_small_grid, C25_structure, C28_double_refuted, C30_coarsening, C31_matvec_rounded, C32_missing_diagonal_refuted, C33_missing_diagonal_refuted, C33_stale_cache_refuted, C36_coherence, C36_last_write, C36_shared_buffer_refuted, C37_loss_refuted, C37_partial_write, C38_dangling_view_refuted, C38_memory_safety, C39_array_sizes, C39_reported_size, C40_array_set, C40_many_objects_refuted, C40_owner_names_refuted, C40_unique_names, C41_registry, C42_defined, C42_observers, C42_undefined, C44_counts, C44_ends, C44_limit, C46_not_earlier, C46_nothing_reported_refuted, C46_stops, C47_schedule, C49_error_large_step_refuted, C49_first_stage, C49_second_solve_refuted, C50_bounds, C51_constructor, C51_cycle, C51_negative_smoothings, C52_step_is_vcycles, C54_report, C54_zero_residual, C55_restart, C55_round_trip_2d, C55_round_trip_3d, C56_final_distinct, C56_names_2d, C56_names_2d_refuted, C56_names_3d, C56_order_2d, C56_order_3d, C56_rounded_2d, C56_width, C57_bad_command_line, C57_bad_file, C57_defaults, C57_exit, C57_no_assignment, C57_precedence, C57_sections, C57_unknown_in_file, C57_unknown_option, C57_values, C60_constant_3d, C62_copies_2d, C62_copies_3d, C62_solve_3d, C63_error_label_refuted, C63_fatal, C63_prefix, C64_template, C65_delivery, C65_fatal, C65_second_file_refuted, C66_long_value_refuted, C66_no_monitor_refuted, C66_rows, C67_counts, C68_adaptive_refuted, C68_resume_2d, C68_resume_3d, C69_construction, C69_dimension, C69_file_grid, C70_final_state, C70_later_final_time_refuted, C70_limit, C70_limit_unused, C71_jacobian_2d, C71_monitored_vector_refuted, C71_solver_2d, C71_solver_3d, C72_log_free_2d, C72_log_free_3d, C72_step_limit_2d_refuted, C72_step_limit_3d_refuted, C72_zero_resolution_refuted, C73_capitals, C73_no_point, C73_refuses, C73_special, C75_same_files_2d, C75_same_files_3d, C78_coloring_refuted, C78_restart_step_refuted, C78_settings, C78_solver_options, C78_type_refuted, C78_user, C78_words, C80_cfl, C80_command_line, C80_missing_file_refuted, C80_no_cells_refuted, C80_rejected, C80_restart_2d_in_3d, C80_restart_3d_in_2d, C81_files_2d, C81_files_3d, C81_reads, C81_written_2d, C81_written_3d, C82_last_line_end, C82_restart_refuted, C82_truncated_2d, C82_truncated_3d, C83_empty, C83_extent, C83_no_extent, C83_no_status, C83_points, C83_values_2d, C83_values_3d, C84_flat, C84_otherwise, C84_refused, C85_flat, C87_refused, C89_never_finishes, C89_no_limit, C89_no_log, C90_banner, C90_directory_refuted, C90_hostname_refuted, C90_processor, C90_table.
   * `functional_extensionality_dep`: C19_ignores_stale_2d, C19_ignores_stale_3d.
   * `sig_forall_dec`, `functional_extensionality_dep`: C11_derivatives, C48_linear, C48_order, C48_time_polynomial, C49_order, C73_print, C76_growth, C81_doubles.
   * `sig_forall_dec`, `sig_not_dec`, `functional_extensionality_dep`: C05_geometry_2d, C05_geometry_3d, C11_consistency_2d, C11_consistency_3d, C12_biharmonic_2d, C12_biharmonic_3d, C12_laplacian_twice_3d, C14_conservation_2d, C14_conservation_3d, C15_biharmonic_refuted, C15_conservation_noflux, C16_mean_2d, C16_mean_3d, C17_implicit_3d, C17_ode23_2d, C17_ode23_3d, C17_rk3_2d, C17_rk3_3d, C17_solve_ode23_3d, C17_solve_rk3_3d, C18_variants_agree_exact, C21_equation_2d, C21_equation_3d, C22_uniform_2d, C22_uniform_3d, C23_energy_2d, C23_energy_3d, C24_jacobian, C26_neumann, C26_stale_halos, C27_restriction, C28_roundtrip, C29_linear_prolongation, C29_linear_x_refuted, C30_coarsening_exact, C31_matvec, C31_residual, C32_jacobi, C32_matvec, C32_residual, C32_split, C33_cached, C33_fixed_point, C33_jacobi, C34_row_scaling, C35_dominance, C43_final_time, C45_overshoot, C48_shu_osher, C49_error, C49_scheme, C50_controlled, C50_initial_outside_refuted, C50_law, C52_cycles_keep_solution, C52_step_3d, C52_step_keeps_steady_state, C53_coarse_equation, C55_domain_2d, C55_domain_3d, C58_residual_report_2d, C58_residual_report_3d, C59_gradient_box_refuted, C59_minmax_3d, C59_monitor_2d, C59_monitor_3d, C59_negative_maximum_refuted, C60_random_2d, C60_random_3d, C61_rhs, C62_rhs_3d, C67_report, C68_continuity_2d, C68_continuity_3d, C70_interrupted_2d, C70_interrupted_3d, C71_equation_2d, C71_equation_3d, C71_jacobian_elsewhere_refuted, C71_mass_2d, C71_mass_3d, C71_same_rule_refuted, C71_stop_rule, C72_mean_2d, C72_mean_3d, C72_run_ode23_2d, C72_run_ode23_3d, C72_run_rk3_2d, C72_run_rk3_3d, C75_mean_2d, C75_mean_3d, C75_restart_ode23_2d, C75_restart_ode23_3d, C75_restart_rk3_2d, C75_restart_rk3_3d, C79_log_frequency_refuted, C79_restart_ode23_2d, C79_restart_ode23_3d, C79_restart_refuted, C79_restart_rk3_2d, C79_restart_rk3_3d, C79_run_ode23_2d, C79_run_ode23_3d, C79_run_rk3_2d, C79_run_rk3_3d, C84_mean, C84_run, C85_run_ode23, C85_run_rk3, C87_keeps, C87_run, C88_mean, C88_poisson, C88_poisson_ode23, C88_poisson_rk3, C88_refused, C88_restart, C88_resume_refuted, C90_poisson_implicit, C90_poisson_ode23, C90_poisson_restart_implicit, C90_poisson_restart_ode23, C90_poisson_restart_rk3, C90_poisson_rk3, C90_restart_implicit, C90_restart_ode23_2d, C90_restart_ode23_3d, C90_restart_rk3_2d, C90_restart_rk3_3d, C90_run_implicit, C90_run_ode23_2d, C90_run_ode23_3d, C90_run_rk3_2d, C90_run_rk3_3d.
   * `sig_forall_dec`, `sig_not_dec`, `classic`, `functional_extensionality_dep`: C61_exact, C73_file_2d, C73_file_3d, C73_read, C73_round_trip, C73_seven_digits, C73_sixteen_refuted, C73_spacing_refuted, C73_time_error, C73_time_refuted, C74_last_step_refuted, C74_resume_2d, C74_resume_3d, C74_steps_refuted, C76_norm_2d, C76_norm_3d, C76_orders, C76_sum, C77_mean_2d, C77_mean_3d, C77_rate_2d, C77_rate_3d, C86_exact, C86_settles, C86_steady, C87_exact, C87_settles, C87_steady.

   `sig_forall_dec` and `sig_not_dec` are the axioms of the standard library's real
   numbers, `functional_extensionality_dep` comes with them, and `classic` with its
   `derivable_pt_lim` and `sin` lemmas and with Flocq.
3. **The reading of the code.** That a model definition says what the cited lines of C++
   say is checked by eye only. Each definition carries the citation and its simplifications.
4. **C++ and its environment**, as far as the model fixes them:
   * `int` has 32 bits; where a property is about overflow the arithmetic is checked
     (`ModelInt32`), elsewhere indices are unbounded integers, which C03 justifies for
     grids whose storage fits in 2^31 entries.
   * Theorems over an arbitrary `Num` hold for doubles bit for bit if the compiler evaluates
     expressions as written. The release flags are `-O3 -march=native` without
     `-ffast-math`: GCC does not reassociate, but on a machine with FMA it may
     contract a product and a sum. Built with `-ffp-contract=off` the theorems apply as they
     stand; with contraction they apply to the uncontracted program only.
   * Theorems over `R` are about exact arithmetic. Rounding errors are bounded in C76 and C77 only,
     for arithmetic that rounds each operation to nearest even; `pow` is assumed accurate to
     4 * 2^-53 relative (plus underflow), as glibc's is.
   * Parallel loops interleave single loads and stores of doubles, which are not torn.
   * printf's %e and strtod (behind operator<< and boost::lexical_cast) round correctly to nearest even, as
     glibc's do (C73, C74).
   * Asserts (`assert`) are compiled out, as in release builds.

## What is modelled

| code | model |
|------|-------|
| data_structures/managed_array*.hpp, managed_array_owner, memory_handle, memory_manager, array_set, exec_includes (access and reductions) | ModelIndex, ModelInt32, ModelMem, ModelNames, ModelReduce, Kernel |
| spatial_discretization/discretization_{2,3}d_cart: constructor, boundary fills, Laplacian, biharmonic, transfers, coarsening | ModelDisc3D, ModelDisc2D |
| governing_equations/cahn_hilliard: right-hand sides (all kernel variants), Jacobian, parameters, initial conditions, solution monitor | ModelCH, ModelJac, ModelMon |
| governing_equations/poisson, residual_calculator, constant_initial_conditions | ModelPoisson, ModelMon |
| data_structures/csr_matrix, ldu_csr_matrix (host code paths) | ModelCSR, ModelLDU |
| time_stepping/time_integrator, rk3ssp, ode23 with its controller, time_integrator_options | ModelTime, ModelRun |
| time_stepping/bdf_multigrid, ode23_smoother | ModelMG, ModelMGCH |
| utils/registry, utils/observer | ModelObs |
| file_io/vtk_solution_writer, vtk_solution_reader, initial_conditions_from_file, file names | ModelVTK, ModelText, ModelXML |
| operator<< and boost::lexical_cast for doubles, as used by solution files | ModelDouble |
| initialization/puppeteer: the factories, the restart path, `run` (without the profiler's report; the log message is in ModelProgram) | ModelMain |
| maDGiCart_main.cpp; Puppeteer's constructor, observers and run composed into one program (without timers and the profiler's report; Poisson, bdf1, steady and the PETSc integrators left to a parameter) | ModelProgram |
| the same with bdf1 and steady for the 3D Cahn-Hilliard equation (in 2D their refusal) (bdf_multigrid.cpp: the options read, the constructor's place in Puppeteer, doTimeStep in the loop; without the messages about cycles), and with Poisson's equation and every integrator but PETSc's | ModelImplicit |
| program_options: parser, template | ModelOptions |
| logger/logger, logger/profiler | ModelLogger |
| makeBanner in logger/logger.cpp; parallel/machine (the queries of GPUs and OpenMP are parameters) | ModelBanner |
| time_stepping/petsc_time_integrator.cpp 15-69 and 235-252: the copies between PETSc vectors and states, PetscRHSFunction, solve with TSSolve a parameter | ModelMon |
| time_stepping/petsc_time_integrator.cpp 72-91 and 93-168: PetscRHSJacobian, PetscTSPreStep (it does nothing unless profiling is compiled in), PetscTSPostStep, PetscTSMonitor; solve with TSSolve an arbitrary program calling the registered functions | ModelPetsc |
| time_stepping/petsc_environment.cpp 34-64; time_stepping/petsc_time_integrator.cpp 255-611 and 639-655 in a host build: the calls to PETSc during set-up, without the creation of vectors and matrices, timers and viewers | ModelPetscSetup |

**Not modelled**: PETSc itself (its time stepper is an arbitrary caller in C71; SpecPetscSetup states
the documented effect of the set-up calls for C78), and of petsc_time_integrator.cpp the creation of vectors
and matrices and the empty SNES, KSP and line search monitors; RAJA/CUDA execution policies beyond the interleaving semantics; the
rocsparse code paths of the matrices; strided_array, strided_array_set, reference_matrix and
mesh_datatypes (no compiled source file includes them); span, except as the buffer an array
borrows or copies; file_io/read_csr_matrix (used by the tests and benchmarks only);
timers and the profiler's report in puppeteer.cpp; the messages about the mean of the random initial
values (cahn_hilliard_initial_conditions.cpp:43), about the fields read from a solution file
(vtk_solution_reader.cpp:190-208) and about multigrid cycles (bdf_multigrid.cpp:100-195), so that the messages
in the theorems about runs (C72, C75, C79, C84-C90) are all those of the program but these, which the logger
writes as comments above or between the rows (C90_table covers any messages); git_info; of tinyxml2, which the
build fetches, everything that texts of the writer do not reach (declarations, comments, CDATA, entities, carriage
returns, the limit on nesting; ModelXML says what is modelled, from the documented behaviour of the library); the conversion between doubles and decimal text in option values and log
lines (in files: ModelDouble; in C55, C56 and C68 a parameter with the
properties stated in each theorem); the GoogleTest suites, Python and shell scripts, CMake;
timing, signals and the operating system; builds with MADG_USE_SINGLE_PRECISION (theorems over
any Num apply to them, C73 and C74 do not).

## Findings

Places where the code does not do what a user would expect. Each is a theorem about the
model (in brackets) or a remark beside one.

*Numerics*
* Linear prolongation has swapped weights: functions linear in x are not reproduced; constants and functions linear in y, z are [C29_linear_prolongation, C29_linear_x_refuted].
* Restriction after nearest prolongation is exact over R, not for all doubles (0.1) [C28_double_refuted].
* The biharmonic of a no-flux field does not conserve the mean: the fill does not make the third derivative vanish [C15_biharmonic_refuted].
* Kernel variants 0 and 1/2 differ by rounding because dx^4 is computed differently [C18_rounding_refuted].
* A periodic fill with more halo layers than cells copies from halo cells [C07_thin_grid_refuted]; multigrid reaches such grids by coarsening.
* The Jacobian needs at least 5 cells per direction; below, the assembly is undefined [C25_small_grid]. It assumes periodic boundaries: with Neumann its pattern is wrong [C26_neumann]. It reads halos of the state which PETSc's callback leaves stale [C26_stale_halos].
* The PETSc Jacobian callback copies the vector into the interior cells and does not fill the halo cells. It is the derivative only if the right-hand side was evaluated last at the same vector; C71_jacobian_elsewhere_refuted exhibits two vectors for which it is not. PETSc's source is not available here, so whether its solvers ever ask elsewhere is not checked.
* The PETSc monitor callback ignores the vector it is given: observers (and so the solution files and the residual report) are shown the vector of the last right-hand side evaluation, which need not be the monitored one [C71_monitored_vector_refuted].
* The PETSc stop rule compares with `<=` and looks at abs_res, the built-in one with `<` at the first entry. abs_res is 1 when all residuals are zero (C58), so with an exact steady state the PETSc rule does not stop [C71_same_rule_refuted]. With a tolerance set and no report yet, the post-step function aborts [C71_stop_rule].
* The solution monitor's maximum starts from DBL_MIN, the smallest positive double: an all-negative field reports it [C59_negative_maximum_refuted]. The 3D gradient statistics loop over ni in all three directions and divide by dx^2 [C59_gradient_box_refuted].

*Time stepping*
* The first step may overshoot the final time; with a final time before the initial one the step is negative [C45_overshoot].
* A restart at or beyond the step limit still performs one step [C44_limit].
* The error controller's clamp does not apply to its first calls [C50_initial_outside_refuted]. Its comment promises factors between 1/10 and 2; the code's limits are 0.01 and 1.1 (C50_law states the law).
* ODE23's first-stage reuse survives into a second solve and then uses a stale right-hand side [C49_second_solve_refuted]; its error estimate for several equations scales earlier contributions by dt again [C49_error_large_step_refuted is the one-equation case].
* The tolerance check reads the residual monitor, which is only updated every log_frequency steps; frequency 0 is undefined (division by zero) [C42_undefined].
* Residual statics persist across runs; an all-zero history reports 1 [C58].

*Multigrid*
* A zero residual gives 0/0 in the convergence test and is reported as failure [C54_zero_residual].
* With nsmooth = 0 the tested residual never changes; a negative number throws [C51_negative_smoothings].
* The 2D equation does not say how smoothing steps scale with the spacing: bdf1 and steady are offered in two dimensions, but always end with a fatal error [C84_flat].
* Coarse levels lack the 1/dt term that the fine level has [C53_coarse_equation states the equation solved].

*Memory*
* Two arrays on one borrowed buffer are not coherent with each other [C36_shared_buffer_refuted]; a view outliving its owner is undefined behaviour [C38_dangling_view_refuted]; a view's constructor zeroes the borrowed buffer.
* Write-only access followed by a partial write loses the rest on a device [C37_loss_refuted]; harmless on a CPU.
* Reported sizes are truncated to 32 bits: 2^28 doubles and more are misreported [C39_reported_size].
* Names of owners are not unique [C40_owner_names_refuted].

*Matrices*
* A row without a diagonal entry is undefined behaviour in Jacobi iterations and loses an entry in the LDU split [C32_missing_diagonal_refuted, C33_missing_diagonal_refuted].
* The cached inverse diagonal goes stale when values are changed through a kept reference [C33_stale_cache_refuted].

*Files, options, log*
* Time and step are stored with seven digits in solution files, so restart is exact only for values that survive printing [C55_restart, C73_seven_digits]; a run of three steps of 0.1 is restarted at 0.3, not at the time reached [C73_time_refuted].
* A grid rebuilt from a solution file may have a spacing that differs in the last bit, and with it the equations [C73_spacing_refuted].
* Two-dimensional file names collide from step 10^6 on [C56_names_2d_refuted]; with a step limit of 0 the width is undefined (log10 of 0).
* An option's unique prefix is accepted on the command line; `max_time_steps=-1` is accepted as 4294967295 [C57_values]; the configuration template prints doubles with six digits [C64_template].
* Error messages carry the label of trace messages [C63_error_label_refuted]; the copy FatalMessage writes to standard output has no label on continuation lines.
* The level given with a second log file is ignored [C65_second_file_refuted]; the console output never returns after a log file was closed [C65_delivery].
* A restart with the adaptive integrator does not continue the step sizes: the file holds the size of the step just made and the controller's history is lost [C68_adaptive_refuted]. A restart after a step that is followed by one shortened to meet the final time makes that step at full length, because the first step is never shortened, and unless the step limit ends the run then one of zero or negative length back to the final time [C74_last_step_refuted].
* With bdf1 and steady the smoothers begin every run with a step of one millionth, whatever mg_cfl is, and a restart begins with it again: an interrupted run computes other values than an uninterrupted one [C88_resume_refuted].
* max_time_steps 0, described as no limit in time_integrator.cpp:96-97, cannot be used: the width of the file names is int(log10(0) + 1), which is undefined, so no file can be written, and every run writes one at its end [C89_never_finishes, C89_no_limit]. log_frequency 0 is a remainder by zero at the first step [C89_no_log].
* A program started in a directory whose name has a line end followed by a word writes that word as an uncommented line at the top of its log; plot_history.py then takes it for the names of the columns [C90_directory_refuted]. getHostname reserves HOST_NAME_MAX characters, one less than a name of that length needs: with a host name of 64 characters, which Linux allows, the banner reads past its buffer [C90_hostname_refuted].
* A restarted run may make another number of steps than the uninterrupted one, because the time in the file is rounded to seven digits; the solutions agree step by step as long as the step sizes do [C74_steps_refuted, C74_resume_3d, C74_resume_2d].
* The options for the grid, the initial time and the step size are ignored without a warning when a restart file is given [C75_restart_rk3_3d and the three others].
* A run that reaches its final time with a shortened last step leaves that size in its final file; a restart from it with a later final time takes all its steps with the shortened size instead of the configured one [C70_later_final_time_refuted].
* The step limit is read as unsigned and stored as int: a limit above 2147483647 becomes negative and the run ends after its first step [C72_step_limit_3d_refuted, C72_step_limit_2d_refuted].
* domain_resolution_x = 0 makes the program divide by zero before any check, in 2D too [C72_zero_resolution_refuted].
* With a PETSc integrator and a fixed step, a restart ignores the step size in the file [C78_restart_step_refuted]; petsc_jacobian_bdf sets no type of time stepper unless petsc_options does [C78_type_refuted]; petsc_jfnk_bdf destroys the colouring its Jacobian function needs [C78_coloring_refuted]; the implicit integrators override the user's -snes_type, -ksp_type and -pc_type [C78_solver_options].
* With a tolerance, log_frequency changes the solution: the tests see the residual logged last, so a run that logs less often goes on for longer [C79_log_frequency_refuted]. A restart forgets the greatest residual so far, so a run with a relative tolerance does not continue as it would have [C79_restart_refuted].
* A restart file that does not exist or is not XML is not refused: a null pointer is dereferenced [C80_missing_file_refuted]. use_cfl_time_step is an option with a description, but both explicit integrators end with a fatal message if it is set [C80_cfl].
* An absolute tolerance given to an integrator without an observer that reports residuals reads the front of an empty list [C46_nothing_reported_refuted].  The program itself always attaches one.
* A run that is killed while it writes a solution file leaves a file from which a later run cannot restart, and which it does not refuse: it dereferences a null pointer [C82_restart_refuted].  No data is read from it, though [C82_truncated_3d].
* A solution file with one or two coordinates too many [C83_points], with fewer cell values than cells [C83_values_3d, C83_values_2d] or with fewer than six numbers in its extent [C83_extent] is not refused: the reader reads beyond the end of a list; nor is one with an empty list [C83_empty].  Surplus cell values are ignored without a message.
* Sections in a configuration file are never usable: any assignment after `[name]` is refused as unknown, and `[]` is undefined behaviour in the option library [C57_sections].
* equation_type poisson with two dimensions ends with an uncaught exception [C85_flat]; with three, the boundary options, m and the other Cahn-Hilliard options are checked but have no effect [C85_run_rk3].
* In 2D the boundary options are checked but have no effect: the grid is always periodic [C06, C69_construction].
* A printed value of thirteen characters merges two columns of the log [C66_long_value_refuted]; updating the log before any monitor is set is undefined [C66_no_monitor_refuted].

## Testing against wrong programs

Each line of `seeded/LOG.jsonl` is one edit of one model definition, made in a scratch copy and
followed by a rebuild of everything that depends on it. A proof that no longer compiles is
replaced by an admitted one so that the rest can be checked, and `Print Assumptions` then shows
which property theorems rest on it. `theorems_failed` lists those: the existing proof of the
theorem no longer goes through, directly or through a lemma. It does not by itself show that the
theorem became false. `theorems_not_rebuilt` lists theorems of modules that could not be rebuilt;
for these nothing is claimed. An edit that breaks a claim whose theorem still proves leads to an
entry in `theorems_tightened`.
