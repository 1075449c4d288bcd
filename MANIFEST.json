{
 "claims": [
  {
   "property": "C01",
   "status": "proved",
   "theorems": [
    "C01_addressing_2d"
   ],
   "note": ""
  },
  {
   "property": "C02",
   "status": "proved",
   "theorems": [
    "C02_addressing_3d"
   ],
   "note": ""
  },
  {
   "property": "C03",
   "status": "proved",
   "theorems": [
    "C03_int32_3d",
    "C03_int32_2d"
   ],
   "note": ""
  },
  {
   "property": "C04",
   "status": "proved",
   "theorems": [
    "C04_lists_3d",
    "C04_lists_2d"
   ],
   "note": ""
  },
  {
   "property": "C05",
   "status": "proved",
   "theorems": [
    "C05_geometry_3d",
    "C05_geometry_2d"
   ],
   "note": ""
  },
  {
   "property": "C06",
   "status": "proved",
   "theorems": [
    "C06_periodic_2d"
   ],
   "note": ""
  },
  {
   "property": "C07",
   "status": "proved",
   "theorems": [
    "C07_periodic_3d",
    "C07_thin_grid_refuted"
   ],
   "note": "The fill is correct when the halo is no wider than the grid; for thinner grids C07_thin_grid_refuted shows the donor list is out of bounds or wrong."
  },
  {
   "property": "C08",
   "status": "proved",
   "theorems": [
    "C08_boundary_fill_3d"
   ],
   "note": ""
  },
  {
   "property": "C09",
   "status": "proved",
   "theorems": [
    "C09_fill_idempotent_3d",
    "C09_fill_idempotent_2d"
   ],
   "note": ""
  },
  {
   "property": "C10",
   "status": "proved",
   "theorems": [
    "C10_stencil_safety_3d",
    "C10_stencil_safety_2d"
   ],
   "note": ""
  },
  {
   "property": "C11",
   "status": "proved",
   "theorems": [
    "C11_consistency_3d",
    "C11_derivatives",
    "C11_consistency_2d"
   ],
   "note": "Exact (real) arithmetic; samples taken at the grid's own cell centres."
  },
  {
   "property": "C12",
   "status": "proved",
   "theorems": [
    "C12_biharmonic_3d",
    "C12_biharmonic_2d",
    "C12_laplacian_twice_3d"
   ],
   "note": "Exact arithmetic, plus the program run twice on a periodic grid."
  },
  {
   "property": "C13",
   "status": "proved",
   "theorems": [
    "C13_matrix",
    "C13_jacobian",
    "C13_fills_3d",
    "C13_fills_2d",
    "C13_operators_3d",
    "C13_operators_2d",
    "C13_rhs_3d",
    "C13_rhs_2d",
    "C13_transfer",
    "C13_vector_updates"
   ],
   "note": "Every loop of the field, matrix, Jacobian and integrator kernels, at the granularity of single loads and stores."
  },
  {
   "property": "C14",
   "status": "proved",
   "theorems": [
    "C14_conservation_3d",
    "C14_conservation_2d"
   ],
   "note": ""
  },
  {
   "property": "C15",
   "status": "proved",
   "theorems": [
    "C15_conservation_noflux",
    "C15_biharmonic_refuted"
   ],
   "note": "The Laplacian conserves under every boundary combination; C15_biharmonic_refuted gives a run whose biharmonic does not sum to zero, as the property says."
  },
  {
   "property": "C16",
   "status": "proved",
   "theorems": [
    "C16_mean_3d",
    "C16_mean_2d"
   ],
   "note": ""
  },
  {
   "property": "C17",
   "status": "proved",
   "theorems": [
    "C17_implicit_3d",
    "C17_rk3_3d",
    "C17_ode23_3d",
    "C17_rk3_2d",
    "C17_ode23_2d",
    "C17_solve_rk3_3d",
    "C17_solve_ode23_3d"
   ],
   "note": "Exact arithmetic. Arbitrary step sizes in 2D and 3D, and whole runs of the time loop in 3D. C17_implicit_3d covers the implicit integrator."
  },
  {
   "property": "C18",
   "status": "proved",
   "theorems": [
    "C18_variants_agree",
    "C18_variants_agree_exact",
    "C18_rounding_refuted"
   ],
   "note": "Variants 1 and 2 agree bit for bit; variant 0 up to the rounding of dx^4 (C18_rounding_refuted is a double where the two products differ)."
  },
  {
   "property": "C19",
   "status": "proved",
   "theorems": [
    "C19_ignores_stale_3d",
    "C19_ignores_stale_2d"
   ],
   "note": ""
  },
  {
   "property": "C20",
   "status": "proved",
   "theorems": [
    "C20_translation_3d",
    "C20_translation_2d"
   ],
   "note": ""
  },
  {
   "property": "C21",
   "status": "proved",
   "theorems": [
    "C21_equation_3d",
    "C21_equation_2d"
   ],
   "note": ""
  },
  {
   "property": "C22",
   "status": "proved",
   "theorems": [
    "C22_uniform_3d",
    "C22_uniform_2d"
   ],
   "note": ""
  },
  {
   "property": "C23",
   "status": "proved",
   "theorems": [
    "C23_energy_3d",
    "C23_energy_2d"
   ],
   "note": ""
  },
  {
   "property": "C24",
   "status": "proved",
   "theorems": [
    "C24_jacobian",
    "C24_entries_rounded"
   ],
   "note": "Entry by entry against the derivative of what evalRHS computes (exact arithmetic), plus the exact expression of each entry for any arithmetic."
  },
  {
   "property": "C25",
   "status": "proved",
   "theorems": [
    "C25_structure",
    "C25_small_grid"
   ],
   "note": "Full structure for five or more cells per direction; undefined behaviour proved for every smaller grid."
  },
  {
   "property": "C26",
   "status": "proved",
   "theorems": [
    "C26_stale_halos",
    "C26_neumann"
   ],
   "note": "Both limits proved for whole families of grids (every Neumann-x grid and state; every periodic grid with a stale halo cell)."
  },
  {
   "property": "C27",
   "status": "proved",
   "theorems": [
    "C27_restriction"
   ],
   "note": ""
  },
  {
   "property": "C28",
   "status": "proved",
   "theorems": [
    "C28_roundtrip",
    "C28_double_refuted"
   ],
   "note": "Exact arithmetic; C28_double_refuted shows the double-precision round trip changes the constant 1/10."
  },
  {
   "property": "C29",
   "status": "proved",
   "theorems": [
    "C29_linear_prolongation",
    "C29_linear_x_refuted"
   ],
   "note": "Constants, bounds and functions of y and z are reproduced; C29_linear_x_refuted shows x is not, as the property says."
  },
  {
   "property": "C30",
   "status": "proved",
   "theorems": [
    "C30_coarsening",
    "C30_coarsening_exact"
   ],
   "note": ""
  },
  {
   "property": "C31",
   "status": "proved",
   "theorems": [
    "C31_matvec",
    "C31_matvec_rounded",
    "C31_residual"
   ],
   "note": "Exact arithmetic for the dense product and the norm; C31_matvec_rounded gives the stored-order sum for any arithmetic."
  },
  {
   "property": "C32",
   "status": "proved",
   "theorems": [
    "C32_split",
    "C32_matvec",
    "C32_residual",
    "C32_jacobi",
    "C32_missing_diagonal_refuted"
   ],
   "note": "Exact arithmetic; C32_missing_diagonal_refuted shows the silent corruption the property mentions, and the out-of-range read."
  },
  {
   "property": "C33",
   "status": "proved",
   "theorems": [
    "C33_jacobi",
    "C33_cached",
    "C33_fixed_point",
    "C33_stale_cache_refuted",
    "C33_missing_diagonal_refuted"
   ],
   "note": "Exact arithmetic; C33_stale_cache_refuted and C33_missing_diagonal_refuted are the excluded cases."
  },
  {
   "property": "C34",
   "status": "proved",
   "theorems": [
    "C34_row_scaling"
   ],
   "note": ""
  },
  {
   "property": "C35",
   "status": "proved",
   "theorems": [
    "C35_dominance"
   ],
   "note": ""
  },
  {
   "property": "C36",
   "status": "proved",
   "theorems": [
    "C36_coherence",
    "C36_last_write",
    "C36_shared_buffer_refuted"
   ],
   "note": "Any sequence of accesses through any number of arrays on host or device builds; on GPU builds under the stated conditions (whole-array write-only accesses, no two live arrays sharing a buffer). C36_shared_buffer_refuted shows the second condition is needed."
  },
  {
   "property": "C37",
   "status": "proved",
   "theorems": [
    "C37_partial_write",
    "C37_loss_refuted"
   ],
   "note": "C37_partial_write says exactly what survives a partial write-only access; C37_loss_refuted is a run in which a GPU build loses host values."
  },
  {
   "property": "C38",
   "status": "proved",
   "theorems": [
    "C38_memory_safety",
    "C38_dangling_view_refuted"
   ],
   "note": "Every sequence of create, view, access, swap and destroy that never uses a dead array or outlives a viewed buffer; C38_dangling_view_refuted is the excluded case."
  },
  {
   "property": "C39",
   "status": "proved",
   "theorems": [
    "C39_reported_size",
    "C39_array_sizes"
   ],
   "note": "Reported sizes equal the true ones below 2^31 bytes and are wrong above (int32 truncation of the byte count)."
  },
  {
   "property": "C40",
   "status": "proved",
   "theorems": [
    "C40_unique_names",
    "C40_many_objects_refuted",
    "C40_array_set",
    "C40_owner_names_refuted"
   ],
   "note": "Handles get pairwise distinct names; owner names chosen by the user are not made unique (C40_owner_names_refuted)."
  },
  {
   "property": "C41",
   "status": "proved",
   "theorems": [
    "C41_registry"
   ],
   "note": "Registry lookups after any sequence of registrations."
  },
  {
   "property": "C42",
   "status": "proved",
   "theorems": [
    "C42_observers",
    "C42_defined",
    "C42_undefined"
   ],
   "note": "C42_undefined: a notification of an event with observers is undefined when the frequency is zero or after 2^31-1 notifications."
  },
  {
   "property": "C43",
   "status": "proved",
   "theorems": [
    "C43_final_time"
   ],
   "note": "Exact arithmetic; holds when the initial step does not overshoot (C45 covers the overshoot)."
  },
  {
   "property": "C44",
   "status": "proved",
   "theorems": [
    "C44_counts",
    "C44_limit",
    "C44_ends"
   ],
   "note": "Any arithmetic."
  },
  {
   "property": "C45",
   "status": "proved",
   "theorems": [
    "C45_overshoot"
   ],
   "note": "Exact arithmetic; this documents the overshoot the property describes."
  },
  {
   "property": "C46",
   "status": "proved",
   "theorems": [
    "C46_stops",
    "C46_not_earlier",
    "C46_nothing_reported_refuted"
   ],
   "note": "Any arithmetic; the monitor values tested are those of the last monitor refresh."
  },
  {
   "property": "C47",
   "status": "proved",
   "theorems": [
    "C47_schedule"
   ],
   "note": "Any arithmetic."
  },
  {
   "property": "C48",
   "status": "proved",
   "theorems": [
    "C48_shu_osher",
    "C48_time_polynomial",
    "C48_linear",
    "C48_order"
   ],
   "note": "Exact arithmetic."
  },
  {
   "property": "C49",
   "status": "proved",
   "theorems": [
    "C49_first_stage",
    "C49_scheme",
    "C49_order",
    "C49_error",
    "C49_error_large_step_refuted",
    "C49_second_solve_refuted"
   ],
   "note": "C49_first_stage holds for any arithmetic; the scheme and the error estimate in exact arithmetic. C49_error_large_step_refuted and C49_second_solve_refuted show where the code departs: steps above 1 with several equations, and a second solve with one integrator."
  },
  {
   "property": "C50",
   "status": "proved",
   "theorems": [
    "C50_bounds",
    "C50_controlled",
    "C50_law",
    "C50_initial_outside_refuted"
   ],
   "note": "Bounds hold from the fourth answer on; C50_initial_outside_refuted shows the initial step is used unclamped for four steps."
  },
  {
   "property": "C51",
   "status": "proved",
   "theorems": [
    "C51_cycle",
    "C51_negative_smoothings",
    "C51_constructor"
   ],
   "note": "Cycle shape, rejection of other level counts, negative smoothing counts, and when the 3D Cahn-Hilliard solver can be constructed. That passes stay on the levels at run time is part of C52_step_is_vcycles (a step completes)."
  },
  {
   "property": "C52",
   "status": "proved",
   "theorems": [
    "C52_step_is_vcycles",
    "C52_cycles_keep_solution",
    "C52_step_keeps_steady_state",
    "C52_step_3d"
   ],
   "note": "C52_step_is_vcycles holds in any arithmetic: a step is between 0 and max_cycles recursive V-cycles. The fixed-point theorems are over the reals, for the 3D Cahn-Hilliard equation, with at least one smoothing and grids no thinner than their halo on every level. C52_step_3d names the smoothing step of every level, the coarse equations and the transfers in terms of cells."
  },
  {
   "property": "C53",
   "status": "proved",
   "theorems": [
    "C53_coarse_equation"
   ],
   "note": "Over the reals, for every coarse level of every reached solver."
  },
  {
   "property": "C54",
   "status": "proved",
   "theorems": [
    "C54_report",
    "C54_zero_residual"
   ],
   "note": "C54_report in any arithmetic; C54_zero_residual for doubles."
  },
  {
   "property": "C55",
   "status": "proved",
   "theorems": [
    "C55_round_trip_3d",
    "C55_round_trip_2d",
    "C55_domain_3d",
    "C55_domain_2d",
    "C55_restart"
   ],
   "note": "Any number type; printing and reading one number are parameters assumed inverse on the values in the file; XML parsing is taken to invert the writer. Grid read back in exact arithmetic."
  },
  {
   "property": "C56",
   "status": "proved",
   "theorems": [
    "C56_width",
    "C56_names_3d",
    "C56_order_3d",
    "C56_names_2d",
    "C56_order_2d",
    "C56_names_2d_refuted",
    "C56_rounded_2d",
    "C56_final_distinct"
   ],
   "note": "3D names for all iterations; 2D names below a million, and refuted from a million on."
  },
  {
   "property": "C57",
   "status": "proved",
   "theorems": [
    "C57_precedence",
    "C57_defaults",
    "C57_unknown_option",
    "C57_unknown_in_file",
    "C57_sections",
    "C57_no_assignment",
    "C57_bad_command_line",
    "C57_bad_file",
    "C57_exit",
    "C57_values"
   ],
   "note": "Command lines of --name=value, --name value, file names and --help; configuration files of assignments, blank lines and comments, and what sections and other lines in them lead to (C57_sections, C57_no_assignment). Negative max_time_steps wrap around (C57_values)."
  },
  {
   "property": "C58",
   "status": "proved",
   "theorems": [
    "C58_residual_report_3d",
    "C58_residual_report_2d"
   ],
   "note": "For every history of residual states on every 2D or 3D grid, sums in any order (exact arithmetic). All-zero histories report 1."
  },
  {
   "property": "C59",
   "status": "proved",
   "theorems": [
    "C59_monitor_3d",
    "C59_minmax_3d",
    "C59_monitor_2d",
    "C59_negative_maximum_refuted",
    "C59_gradient_box_refuted"
   ],
   "note": "Minimum and maximum on every grid with a halo, gradient sum on squares and cubes; the two cases in which the monitor is wrong (no positive value, box with unequal sides) are refuted with explicit statements."
  },
  {
   "property": "C60",
   "status": "proved",
   "theorems": [
    "C60_random_3d",
    "C60_random_2d",
    "C60_constant_3d"
   ],
   "note": "For every sequence of draws in [lo,hi], exact arithmetic; constant initial conditions for any number type."
  },
  {
   "property": "C61",
   "status": "proved",
   "theorems": [
    "C61_rhs",
    "C61_exact"
   ],
   "note": "For every grid with a halo; sin and cos are the real functions."
  },
  {
   "property": "C62",
   "status": "proved",
   "theorems": [
    "C62_copies_3d",
    "C62_copies_2d",
    "C62_rhs_3d",
    "C62_solve_3d"
   ],
   "note": "Any number type for the copies; the external solver is a parameter."
  },
  {
   "property": "C63",
   "status": "proved",
   "theorems": [
    "C63_prefix",
    "C63_fatal",
    "C63_error_label_refuted"
   ],
   "note": "Trace, debug, info, warning and fatal messages proved for every string; error messages carry the Trace label (C63_error_label_refuted)."
  },
  {
   "property": "C64",
   "status": "proved",
   "theorems": [
    "C64_template"
   ],
   "note": "Doubles come back as the number read from their six-digit text."
  },
  {
   "property": "C65",
   "status": "proved",
   "theorems": [
    "C65_delivery",
    "C65_fatal",
    "C65_second_file_refuted"
   ],
   "note": "All histories of calls. The level of a second initLogFile is ignored (C65_second_file_refuted); the console never comes back after closeLogFile (part of C65_delivery)."
  },
  {
   "property": "C66",
   "status": "proved",
   "theorems": [
    "C66_rows",
    "C66_long_value_refuted",
    "C66_no_monitor_refuted"
   ],
   "note": "Needs values without blanks and of at most 12 characters after the first; longer ones merge columns (C66_long_value_refuted). Update without monitors is undefined (C66_no_monitor_refuted)."
  },
  {
   "property": "C67",
   "status": "proved",
   "theorems": [
    "C67_counts",
    "C67_report"
   ],
   "note": "Counts in any arithmetic; report over the reals. The hash order is arbitrary and std::sort is any function meeting its specification."
  },
  {
   "property": "C68",
   "status": "proved",
   "theorems": [
    "C68_resume_3d",
    "C68_resume_2d",
    "C68_continuity_3d",
    "C68_continuity_2d",
    "C68_adaptive_refuted"
   ],
   "note": "RK3 in 2D and 3D, any arithmetic given equal grid spacing, and end to end over the reals; without residual tolerances (the relative one is relative to the first residual of the run). C68_adaptive_refuted: the adaptive integrator does not continue its step sizes. Each theorem also shows that the restarted run ends normally if its callbacks do."
  },
  {
   "property": "C69",
   "status": "proved",
   "theorems": [
    "C69_construction",
    "C69_file_grid",
    "C69_dimension"
   ],
   "note": "Configurations with positive resolutions; sizes read from a file are whatever the file says."
  },
  {
   "property": "C70",
   "status": "proved",
   "theorems": [
    "C70_limit",
    "C70_limit_unused",
    "C70_final_state",
    "C70_interrupted_3d",
    "C70_interrupted_2d",
    "C70_later_final_time_refuted"
   ],
   "note": "C70_limit and C70_limit_unused hold for every integrator; the continuation is for RK3 without residual tolerances, end to end over the reals (C70_final_state gives the any-arithmetic half). C70_later_final_time_refuted: raising the final time instead of the limit continues with the shortened last step."
  },
  {
   "property": "C71",
   "status": "proved",
   "theorems": [
    "C71_solver_3d",
    "C71_solver_2d",
    "C71_jacobian_2d",
    "C71_equation_3d",
    "C71_equation_2d",
    "C71_jacobian_elsewhere_refuted",
    "C71_monitored_vector_refuted",
    "C71_stop_rule",
    "C71_same_rule_refuted",
    "C71_mass_3d",
    "C71_mass_2d"
   ],
   "note": "TSSolve is an arbitrary program calling the registered functions (ts_prog). Jacobian requests must be at the vector evaluated last: C71_jacobian_elsewhere_refuted shows this is needed; whether PETSc always does so is not checked here. C71_monitored_vector_refuted: observers see the vector evaluated last, not the monitored one. C71_same_rule_refuted: the stop rule differs from the built-in integrators."
  },
  {
   "property": "C72",
   "status": "proved",
   "theorems": [
    "C72_run_rk3_3d",
    "C72_run_ode23_3d",
    "C72_run_rk3_2d",
    "C72_run_ode23_2d",
    "C72_mean_3d",
    "C72_mean_2d",
    "C72_log_free_3d",
    "C72_log_free_2d",
    "C72_step_limit_3d_refuted",
    "C72_step_limit_2d_refuted",
    "C72_zero_resolution_refuted"
   ],
   "note": "Both explicit integrators, 2D and 3D, from the command line to the files. PETSc integrators, bdf1/steady and Poisson are an oracle here (see C51-C54, C61, C71). C72_step_limit_*_refuted: a step limit above 2^31-1 becomes negative and the run ends after its first step. C72_zero_resolution_refuted: domain_resolution_x = 0 divides by zero. A step limit of 0 is outside the theorems. The messages about the mean of the random initial values and about timers are left out of the modelled log; both are comments in it (C90_table)."
  },
  {
   "property": "C73",
   "status": "proved",
   "theorems": [
    "C73_read",
    "C73_capitals",
    "C73_special",
    "C73_no_point",
    "C73_refuses",
    "C73_print",
    "C73_round_trip",
    "C73_sixteen_refuted",
    "C73_seven_digits",
    "C73_time_error",
    "C73_time_refuted",
    "C73_file_3d",
    "C73_file_2d",
    "C73_spacing_refuted"
   ],
   "note": "printf and strtod are modelled as correctly rounding. C73_time_refuted: the time after three steps of 0.1 is not read back exactly. C73_spacing_refuted: the grid rebuilt from a file may have another spacing in its last bit. C73_sixteen_refuted: 17 significant digits are needed. C73_refuses leaves texts that begin with nan aside, because boost also takes nan(...), which the model does not."
  },
  {
   "property": "C74",
   "status": "proved",
   "theorems": [
    "C74_resume_3d",
    "C74_resume_2d",
    "C74_steps_refuted",
    "C74_last_step_refuted"
   ],
   "note": "The condition on the step sizes is needed: C74_steps_refuted (10 steps against 7 + 2 because of the rounding of the time) and C74_last_step_refuted (a step beyond the final time and one of negative size)."
  },
  {
   "property": "C75",
   "status": "proved",
   "theorems": [
    "C75_restart_rk3_3d",
    "C75_restart_ode23_3d",
    "C75_restart_rk3_2d",
    "C75_restart_ode23_2d",
    "C75_mean_3d",
    "C75_mean_2d",
    "C75_same_files_3d",
    "C75_same_files_2d"
   ],
   "note": "C75_same_files compares files for rk3ssp only: with ode23 a restart does not continue the step sizes (C68_adaptive_refuted). Its conditions on the numbers in the file are needed (C73_time_refuted, C74_steps_refuted); the restart must not be at the last step or just before a shortened one (C74_last_step_refuted)."
  },
  {
   "property": "C76",
   "status": "proved",
   "theorems": [
    "C76_growth",
    "C76_sum",
    "C76_orders",
    "C76_norm_3d",
    "C76_norm_2d"
   ],
   "note": "Assumes round-to-nearest without FMA contraction, and for the norm that pow(x,2) is within 4 * 2^-53 of the square."
  },
  {
   "property": "C77",
   "status": "proved",
   "theorems": [
    "C77_rate_3d",
    "C77_rate_2d",
    "C77_mean_3d",
    "C77_mean_2d"
   ],
   "note": "Assumes round-to-nearest without FMA contraction and pow(x,3) within 4 * 2^-53 of the cube. The bound b on the fields handed to the right-hand side is a hypothesis about the run (a guarded right-hand side), not proved: the scheme has no maximum principle."
  },
  {
   "property": "C78",
   "status": "proved",
   "theorems": [
    "C78_words",
    "C78_settings",
    "C78_user",
    "C78_solver_options",
    "C78_restart_step_refuted",
    "C78_type_refuted",
    "C78_coloring_refuted"
   ],
   "note": "PETSc's behaviour is taken from its manual (SpecPetscSetup), for the settings listed there. C78_restart_step_refuted: with a fixed step the size in a restart file is ignored. C78_type_refuted: petsc_jacobian_bdf sets no type (the comment in the code passes -ts_type bdf). C78_coloring_refuted: the colouring is destroyed before its first use, given that SNESSetJacobian takes no reference to its context."
  },
  {
   "property": "C79",
   "status": "proved",
   "theorems": [
    "C79_run_rk3_3d",
    "C79_run_ode23_3d",
    "C79_run_rk3_2d",
    "C79_run_ode23_2d",
    "C79_restart_rk3_3d",
    "C79_restart_ode23_3d",
    "C79_restart_rk3_2d",
    "C79_restart_ode23_2d",
    "C79_log_frequency_refuted",
    "C79_restart_refuted"
   ],
   "note": "Generalises C72 and C75, which are the case without tolerances. The log rows and the conditions for an early end are stated for a platform whose reductions add up in some order (reduces), in exact arithmetic. C79_log_frequency_refuted: the tests see the residual last logged. C79_restart_refuted: the greatest residual so far is not in the file."
  },
  {
   "property": "C80",
   "status": "proved",
   "theorems": [
    "C80_rejected",
    "C80_cfl",
    "C80_command_line",
    "C80_restart_3d_in_2d",
    "C80_restart_2d_in_3d",
    "C80_no_cells_refuted",
    "C80_missing_file_refuted"
   ],
   "note": "An ending that is the same for every number of steps allowed, also none, comes before the first step. The theorems on restart files say that the run does not end normally, not how it ends. C80_no_cells_refuted (a division by zero) and C80_missing_file_refuted (a null pointer): cases the program should refuse but does not."
  },
  {
   "property": "C81",
   "status": "proved",
   "theorems": [
    "C81_reads",
    "C81_written_3d",
    "C81_written_2d",
    "C81_doubles",
    "C81_files_3d",
    "C81_files_2d"
   ],
   "note": "tinyxml2 is not part of the repository (external/ExternalTinyXML2.cmake fetches it): its parser is modelled from its documented behaviour, for texts without declarations, comments, CDATA, entities and carriage returns, which the writer never prints. C81_doubles shows for doubles what the other theorems ask of the printing of numbers."
  },
  {
   "property": "C82",
   "status": "proved",
   "theorems": [
    "C82_truncated_3d",
    "C82_truncated_2d",
    "C82_last_line_end",
    "C82_restart_refuted"
   ],
   "note": "C82_restart_refuted: the program does not notice that nothing was read and dereferences a null pointer; compare C80_missing_file_refuted."
  },
  {
   "property": "C83",
   "status": "proved",
   "theorems": [
    "C83_points",
    "C83_values_3d",
    "C83_values_2d",
    "C83_no_status",
    "C83_empty",
    "C83_extent",
    "C83_no_extent"
   ],
   "note": "The number of vertices and a third of the number of coordinates are assumed to fit in an int, which is the type of both in the code. Lists of blanks only, without any word, are left out: they are read as one empty word."
  },
  {
   "property": "C84",
   "status": "proved",
   "theorems": [
    "C84_run",
    "C84_mean",
    "C84_refused",
    "C84_flat",
    "C84_otherwise"
   ],
   "note": "Fresh runs (restarts: C88), exact arithmetic, at least two cells per direction on the coarsest level and at least one smoothing; the messages of the multigrid cycles are not modelled. If the residual is zero before the first cycle, where the code divides by it, only the least and the greatest number of cycles are given. C84_refused, C84_flat and C84_otherwise hold in any arithmetic. Finding (C84_flat): the 2D equation does not override cflScale, so bdf1 and steady are offered but always end fatally in two dimensions."
  },
  {
   "property": "C85",
   "status": "proved",
   "theorems": [
    "C85_run_rk3",
    "C85_run_ode23",
    "C85_flat"
   ],
   "note": "Fresh runs in exact arithmetic with rk3ssp or ode23; C85_flat holds in any arithmetic and for every integrator. For bdf1 and steady see C87, for restarts C88."
  },
  {
   "property": "C86",
   "status": "proved",
   "theorems": [
    "C86_settles",
    "C86_steady",
    "C86_exact"
   ],
   "note": "Exact arithmetic, rk3ssp, the step limit h^2/6 and a first step that does not pass the final time (the loop never shortens the first step). The reference field need not be an exact steady state: tau is its defect."
  },
  {
   "property": "C87",
   "status": "proved",
   "theorems": [
    "C87_run",
    "C87_refused",
    "C87_keeps",
    "C87_settles",
    "C87_steady",
    "C87_exact"
   ],
   "note": "Fresh runs (restarts: C88), exact arithmetic, at least two cells per direction on the coarsest level and at least one smoothing; the messages of the multigrid cycles are not modelled. C87_refused holds in any arithmetic. C87_settles, C87_steady and C87_exact are about one level; with more levels C87_keeps says that the solution is a fixed point, not that the cycles approach it."
  },
  {
   "property": "C88",
   "status": "proved",
   "theorems": [
    "C88_restart",
    "C88_mean",
    "C88_refused",
    "C88_poisson",
    "C88_poisson_rk3",
    "C88_poisson_ode23",
    "C88_resume_refuted"
   ],
   "note": "Exact arithmetic, files whose numbers survive printing. The implicit runs have no tolerance on the residual of the time loop. Finding (C88_resume_refuted): the smoothers start every run with a step of one millionth, which is not in the solution file, so a restarted implicit run differs from the uninterrupted one; the witness is the pair of step sequences that C88_restart gives for uniform values, not two runs of the program."
  },
  {
   "property": "C89",
   "status": "proved",
   "theorems": [
    "C89_never_finishes",
    "C89_no_limit",
    "C89_no_log"
   ],
   "note": "C89_never_finishes covers fresh and restarted runs with all integrators but PETSc's; that the outcome is undefined behaviour is proved for fresh Cahn-Hilliard runs with rk3ssp and ode23. On common platforms the conversion of minus infinity yields the least int, and files are written under names that are not padded; the C++ standard leaves it undefined. Numbers above 2147483647, which make a single step, are C72_step_limit_3d_refuted and C72_step_limit_2d_refuted."
  },
  {
   "property": "C90",
   "status": "proved",
   "theorems": [
    "C90_table",
    "C90_run_rk3_3d",
    "C90_run_ode23_3d",
    "C90_run_rk3_2d",
    "C90_run_ode23_2d",
    "C90_restart_rk3_3d",
    "C90_restart_ode23_3d",
    "C90_restart_rk3_2d",
    "C90_restart_ode23_2d",
    "C90_banner",
    "C90_directory_refuted",
    "C90_processor",
    "C90_hostname_refuted",
    "C90_run_implicit",
    "C90_poisson_rk3",
    "C90_poisson_ode23",
    "C90_poisson_implicit",
    "C90_restart_implicit",
    "C90_poisson_restart_implicit",
    "C90_poisson_restart_rk3",
    "C90_poisson_restart_ode23"
   ],
   "note": "The header printed every fifty rows is made by the tabulate library, which is a parameter: the theorems assume that its lines begin with the number sign the code gives it as its left border and corners. They are about the text delivered to the log file: the file is not flushed after every record, so a run that is killed may lose the last ones, and above 500 MB the log continues in a second file, which has no names of columns; neither is modelled. Values are assumed to be printed as words with at most twelve characters (thirteen run together: C66_long_value_refuted). The run theorems cover new and restarted Cahn-Hilliard runs with rk3ssp and ode23 and any tolerances, with bdf1 and steady (3D, without tolerances), and of Poisson's equation with all four; C90_table covers what all others write, and any further messages (those about random initial values, fields read and multigrid cycles are not in the model of runs)."
  }
 ]
}