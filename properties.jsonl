{"id": "C01", "title": "2D cell addressing", "statement": "Every cell (i,j) of a 2D field, halo layers included, has its own slot inside the array's storage; two different cells never share a slot; every slot belongs to a cell; and translating a cell to its slot and back returns the same (i,j).", "quantifier": "all grid extents, halo widths and cells", "why_tests_cant": "unit tests use one or two grid sizes; aliasing or out-of-range slots at another size would go unseen", "anchors": ["data_structures/managed_array_2d.hpp: get1Dindex, ManagedArray2DAccessor::getIJ, ManagedArray2DOwning"]}
{"id": "C02", "title": "3D cell addressing", "statement": "Every cell (i,j,k) of a 3D field, halo layers included, has its own slot inside the array's storage; distinct cells have distinct slots; every slot belongs to a cell; slot-to-cell inverts cell-to-slot.", "quantifier": "all (possibly unequal) extents in the three directions, all halo widths, all cells", "why_tests_cant": "non-cubic extents and all halo widths cannot be enumerated by tests", "anchors": ["data_structures/managed_array_3d.hpp: get1DindexFrom3D, ManagedArray3DAccessor::getIJK, ManagedArray3DOwning"]}
{"id": "C03", "title": "32-bit index arithmetic", "statement": "As long as the padded cell count fits a signed 32-bit int, addressing a cell and recovering it never overflows in any intermediate computation and gives the mathematically exact slot; past that size allocating the field already overflows.", "quantifier": "all extents, halo widths and cells", "why_tests_cant": "the overflow boundary needs arrays of 16 GB", "anchors": ["data_structures/managed_array_3d.hpp: get1DindexFrom3D, getIJK, ManagedArray3DOwning", "data_structures/managed_array_2d.hpp: get1Dindex, getIJ"]}
{"id": "C04", "title": "Interior and halo cell lists", "statement": "The interior list of a grid names every interior cell exactly once and no halo cell, in row-major order; the 2D boundary list names every halo cell exactly once and no interior cell; both fill their storage exactly.", "quantifier": "all extents and halo widths", "why_tests_cant": "a missed or doubled cell can appear only for particular size/halo combinations", "anchors": ["spatial_discretization/discretization_2d_cart.cpp: Discretization2DCart (interior_indices_, boundary_indices_)", "spatial_discretization/discretization_3d_cart.cpp: Discretization3DCart (interior_indices_)"]}
{"id": "C05", "title": "Grid geometry", "statement": "In exact arithmetic the grid's vertices are equally spaced with spacing dx from the domain's begin corner, the last interior x vertex is exactly xend, and every cell centre is the midpoint of its two bounding vertices, also in the halos.", "quantifier": "all domains, extents, halo widths and cells", "why_tests_cant": "a sample of coordinates does not bound every cell and every domain", "anchors": ["spatial_discretization/discretization_2d_cart.cpp: constructor", "spatial_discretization/discretization_3d_cart.cpp: constructor"]}
{"id": "C06", "title": "Periodic halo exchange in 2D", "statement": "After applying periodic boundary conditions to a 2D field every halo cell, corners included, holds the value of the interior cell it wraps onto, and no interior value changes.", "quantifier": "all fields, extents and halo widths not exceeding the extent", "why_tests_cant": "corner and edge copies depend on loop order and sizes", "anchors": ["spatial_discretization/discretization_2d_cart.cpp: applyPeriodicBoundaryConditions"]}
{"id": "C07", "title": "Periodic halo exchange in 3D", "statement": "After applying periodic boundary conditions to a 3D field every halo cell (faces, edges, corners) holds the value of the interior cell it wraps onto, and no interior value changes.", "quantifier": "all fields, unequal extents, halo widths not exceeding the extents", "why_tests_cant": "8 corners, 12 edges and 6 faces at every size", "anchors": ["spatial_discretization/discretization_3d_cart.cpp: constructor donor/receiver lists, applyPeriodicBoundaryConditions"]}
{"id": "C08", "title": "Neumann and mixed halo fill in 3D", "statement": "After the boundary fill used by the right-hand side, a halo cell holds the value of the interior cell reached by clamping each Neumann direction to the nearest interior layer and wrapping each periodic direction, in every combination of the three boundary types; interior values are unchanged.", "quantifier": "all fields, extents, halo widths, and all combinations of periodic/Neumann per direction", "why_tests_cant": "edge and corner halos depend on the order of six passes for eight combinations of boundary types", "anchors": ["spatial_discretization/discretization_3d_cart.cpp: applyPeriodicBoundaryConditions, applyNeumannBoundaryConditions, applyNeumannBCX/Y/Z", "governing_equations/cahn_hilliard/cahn_hilliard_3d_fd.cpp: evalRHSBasic"]}
{"id": "C09", "title": "Boundary fill is idempotent and reads only the interior", "statement": "Applying the boundary conditions twice equals applying them once, and two fields that agree on interior cells agree everywhere after the fill.", "quantifier": "all fields, sizes and boundary combinations", "why_tests_cant": "needs all possible halo contents", "anchors": ["spatial_discretization/discretization_3d_cart.cpp: applyPeriodicBoundaryConditions, applyNeumannBoundaryConditions", "spatial_discretization/discretization_2d_cart.cpp: applyPeriodicBoundaryConditions"]}
{"id": "C10", "title": "Stencil memory safety", "statement": "Evaluating the Laplacian (one halo layer) or biharmonic (two halo layers) never touches storage outside the array, or a slot belonging to another cell than the intended neighbour, and writes interior cells only; with too few halo layers the access leaves the array.", "quantifier": "all fields, extents and halo widths", "why_tests_cant": "out-of-range reads often do not crash and return plausible numbers", "anchors": ["spatial_discretization/discretization_2d_cart.cpp: laplacian, biharmonic", "spatial_discretization/discretization_3d_cart.cpp: laplacian, biharmonic"]}
{"id": "C11", "title": "Consistency of the discrete operators", "statement": "On samples of a polynomial the discrete Laplacian returns the exact Laplacian up to total degree three, and the biharmonic the exact bi-Laplacian up to degree five (exact arithmetic), at every interior cell of every grid.", "quantifier": "all polynomials of the degree, all grids, spacings and cells", "why_tests_cant": "order-of-accuracy tests sample one function and a few grids", "anchors": ["spatial_discretization/discretization_2d_cart.cpp: laplacian, biharmonic", "spatial_discretization/discretization_3d_cart.cpp: laplacian, biharmonic"]}
{"id": "C12", "title": "Biharmonic equals Laplacian applied twice", "statement": "On a field defined on two halo layers the biharmonic operator gives the same value as applying the Laplacian stencil twice (exact arithmetic).", "quantifier": "all fields, grids, cells", "why_tests_cant": "needs all fields", "anchors": ["spatial_discretization/discretization_2d_cart.cpp: biharmonic, laplacian", "spatial_discretization/discretization_3d_cart.cpp: biharmonic, laplacian"]}
{"id": "C13", "title": "Parallel loops are schedule independent", "statement": "Each field kernel (boundary fills, Laplacian, biharmonic, right-hand sides, Jacobian assembly, restriction, prolongation, vector updates, matrix-vector product) gives bit-for-bit the sequential result under every interleaving of its loop iterations, with no data race.", "quantifier": "all inputs and all interleavings of the individual loads and stores of the iterations", "why_tests_cant": "races show up only under particular schedules and hardware", "anchors": ["data_structures/exec_includes.hpp: maDGForAll", "spatial_discretization/discretization_2d_cart.cpp", "spatial_discretization/discretization_3d_cart.cpp", "governing_equations/cahn_hilliard/cahn_hilliard_2d_fd.cpp", "governing_equations/cahn_hilliard/cahn_hilliard_3d_fd.cpp", "data_structures/csr_matrix.cpp: matVecMultiply"]}
{"id": "C14", "title": "Conservation, periodic", "statement": "With periodic boundaries the Laplacian and the biharmonic of any field sum to exactly zero over the interior (exact arithmetic).", "quantifier": "all fields, extents and spacings", "why_tests_cant": "summing a sampled field only shows a small number", "anchors": ["spatial_discretization/discretization_2d_cart.cpp: laplacian, biharmonic", "spatial_discretization/discretization_3d_cart.cpp: laplacian, biharmonic"]}
{"id": "C15", "title": "Conservation, no-flux walls", "statement": "With Neumann boundaries in any of the directions the Laplacian still sums to zero over the interior; the biharmonic with the clamped halo fill does not in general.", "quantifier": "all fields, extents and boundary combinations", "why_tests_cant": "one needs all fields for the positive part and a specific field for the negative part", "anchors": ["spatial_discretization/discretization_3d_cart.cpp: laplacian, biharmonic, applyNeumannBoundaryConditions"]}
{"id": "C16", "title": "Evolution of the mean", "statement": "The interior sum of the Cahn-Hilliard right-hand side equals -sigma times the sum of (c-m), so it vanishes whenever the mean of c is m or sigma is zero (periodic boundaries, exact arithmetic).", "quantifier": "all states, parameters and grids", "why_tests_cant": "needs all states", "anchors": ["governing_equations/cahn_hilliard/cahn_hilliard_2d_fd.cpp: evalRHSImpl", "governing_equations/cahn_hilliard/cahn_hilliard_3d_fd.cpp: evalRHSBasic, evalRHSFused, evalRHSFullyFused"]}
{"id": "C17", "title": "Mean is conserved by every explicit run", "statement": "Starting from a state whose mean is m (or with sigma zero) the mean stays exactly m after any number of RK3 or adaptive RK2(3) steps of any sizes (periodic, exact arithmetic).", "quantifier": "all initial states, all step sequences, any number of steps", "why_tests_cant": "a run of bounded length cannot show an invariant", "anchors": ["time_stepping/rk3ssp.cpp: doTimeStep", "time_stepping/ode23.cpp: doTimeStep", "governing_equations/cahn_hilliard/cahn_hilliard_3d_fd.cpp"]}
{"id": "C18", "title": "Kernel variants agree", "statement": "The three kernel variants of the 3D right-hand side return the same interior values and leave the same state: fused and fully fused bit-for-bit in any arithmetic, the basic one whenever the product dx*dx*dx*dx rounds like (dx*dx)*(dx*dx), in particular in exact arithmetic.", "quantifier": "all states, grids, boundary combinations, parameters, arithmetic", "why_tests_cant": "tests compare a few random states to a tolerance", "anchors": ["governing_equations/cahn_hilliard/cahn_hilliard_3d_fd.cpp: evalRHSBasic, evalRHSFused, evalRHSFullyFused"]}
{"id": "C19", "title": "Right-hand side ignores stale halos", "statement": "The right-hand side's interior values depend only on the interior of the state passed in, never on what its halo cells or the scratch arrays held before.", "quantifier": "all states, halo contents and scratch contents", "why_tests_cant": "needs all stale contents", "anchors": ["governing_equations/cahn_hilliard/cahn_hilliard_2d_fd.cpp: evalRHSImpl", "governing_equations/cahn_hilliard/cahn_hilliard_3d_fd.cpp: evalRHSBasic, evalRHSFused, evalRHSFullyFused"]}
{"id": "C20", "title": "Translation equivariance", "statement": "With periodic boundaries, cyclically shifting a state in any direction by any amount shifts the right-hand side by the same amount, bit for bit.", "quantifier": "all states, shifts and grids, any arithmetic", "why_tests_cant": "needs all shifts and states", "anchors": ["governing_equations/cahn_hilliard/cahn_hilliard_2d_fd.cpp: evalRHSImpl", "governing_equations/cahn_hilliard/cahn_hilliard_3d_fd.cpp: evalRHSFused"]}
{"id": "C21", "title": "Right-hand side implements the equation", "statement": "At every interior cell the right-hand side equals Laplacian(c^3-c) - eps2*Biharmonic(c) - sigma*(c-m) on the boundary-extended state, for every boundary combination and variant.", "quantifier": "all states, grids, parameters, boundary combinations", "why_tests_cant": "tests sample", "anchors": ["governing_equations/cahn_hilliard/cahn_hilliard_2d_fd.cpp: evalRHSImpl", "governing_equations/cahn_hilliard/cahn_hilliard_3d_fd.cpp: evalRHSBasic, evalRHSFused, evalRHSFullyFused"]}
{"id": "C22", "title": "Uniform states", "statement": "On a uniform state of value c the right-hand side is -sigma*(c-m) everywhere, so the uniform state m is an equilibrium, for every boundary combination (exact arithmetic).", "quantifier": "all constants, parameters, grids and boundary combinations", "why_tests_cant": "needs all sizes", "anchors": ["governing_equations/cahn_hilliard/cahn_hilliard_2d_fd.cpp", "governing_equations/cahn_hilliard/cahn_hilliard_3d_fd.cpp"]}
{"id": "C23", "title": "Energy dissipation", "statement": "With periodic boundaries and sigma zero the right-hand side is a descent direction of the discrete free energy: the energy's derivative along the right-hand side is minus a sum of squares, hence never positive.", "quantifier": "all states, parameters and grids", "why_tests_cant": "needs all states", "anchors": ["governing_equations/cahn_hilliard/cahn_hilliard_2d_fd.cpp: evalRHSImpl", "governing_equations/cahn_hilliard/cahn_hilliard_3d_fd.cpp: evalRHSFused"]}
{"id": "C24", "title": "Jacobian is the derivative of the right-hand side", "statement": "For a periodic grid with at least five cells per direction and up-to-date halos, each stored Jacobian entry is the exact partial derivative of the right-hand side of the row's cell with respect to the column's cell, and all partial derivatives outside the stored pattern are zero.", "quantifier": "all states, parameters, grids with at least five cells per direction, all row/column pairs", "why_tests_cant": "finite-difference checks sample states and tolerate error", "anchors": ["governing_equations/cahn_hilliard/cahn_hilliard_3d_fd.cpp: createSparseMatrix, evalJacobian, nNonZerosPerRow"]}
{"id": "C25", "title": "Jacobian sparsity structure", "statement": "For at least five cells per direction the Jacobian's sparse structure has row offsets 25*r, strictly increasing in-range columns in each row, exactly the stencil columns, and the announced nonzero counts; with fewer than five cells in a direction construction reads past a buffer.", "quantifier": "all grids", "why_tests_cant": "structure must hold for every row of every grid", "anchors": ["governing_equations/cahn_hilliard/cahn_hilliard_3d_fd.cpp: createSparseMatrix, nNonZerosPerRow"]}
{"id": "C26", "title": "Jacobian limits", "statement": "With a Neumann direction, or with halos not refreshed since the state changed, the assembled Jacobian is not the derivative of the right-hand side.", "quantifier": "existence of grids and states", "why_tests_cant": "a negative statement needs a witness", "anchors": ["governing_equations/cahn_hilliard/cahn_hilliard_3d_fd.cpp: evalJacobian"]}
{"id": "C27", "title": "Restriction conserves the mean", "statement": "Restricting a fine field to the coarse grid gives each coarse cell the mean of its eight children, hence preserves the interior mean, constants and the range of values (exact arithmetic).", "quantifier": "all fields and even grids", "why_tests_cant": "needs all fields", "anchors": ["spatial_discretization/discretization_3d_cart.cpp: interpolateFineToCoarse"]}
{"id": "C28", "title": "Restriction undoes nearest prolongation", "statement": "Prolonging a coarse field with nearest interpolation and restricting it again gives back the same field (exact arithmetic); every interior fine cell is written exactly once.", "quantifier": "all fields and grids", "why_tests_cant": "needs all fields", "anchors": ["spatial_discretization/discretization_3d_cart.cpp: interpolateFineToCoarse, interpolateCoarseToFine"]}
{"id": "C29", "title": "Linear prolongation", "statement": "Linear prolongation writes every interior fine cell exactly once, in bounds, with weights summing to one (constants are preserved, no new extrema); but it does not reproduce linear functions.", "quantifier": "all fields and grids", "why_tests_cant": "the weights' defect is invisible on constants", "anchors": ["spatial_discretization/discretization_3d_cart.cpp: interpolateCoarseToFine"]}
{"id": "C30", "title": "Grid coarsening", "statement": "Coarsening a grid with even extents gives half the extents, twice the spacing and the same domain, halos and boundary types; a grid with an odd extent is rejected.", "quantifier": "all domains and extents", "why_tests_cant": "all extents", "anchors": ["spatial_discretization/discretization_3d_cart.cpp: createCoarsenedDiscretization"]}
{"id": "C31", "title": "CSR matrix-vector product", "statement": "For a well-formed CSR matrix the product equals the dense matrix-vector product, under every schedule; the residual norm reported for A and x,b is zero exactly when Ax=b.", "quantifier": "all matrices, vectors, sizes", "why_tests_cant": "tests use fixed matrices", "anchors": ["data_structures/csr_matrix.cpp: matVecMultiply, rmsNorm"]}
{"id": "C32", "title": "LDU and CSR agree", "statement": "Splitting a matrix into strictly off-diagonal and diagonal parts gives the same product as the original matrix when every row has exactly one diagonal entry; a row without one silently corrupts the split.", "quantifier": "all matrices and vectors", "why_tests_cant": "depends on where the diagonal sits in each row", "anchors": ["data_structures/ldu_csr_matrix.cpp: LDUCSRMatrix, matVecMultiply"]}
{"id": "C33", "title": "Jacobi smoothing", "statement": "A Jacobi sweep with weight w replaces x by x + w (D^-1 (b - (A-D) x) - x) in every row, for any number of sweeps; with w nonzero x is left unchanged exactly when it solves Ax=b (no tiny diagonals); the cached-diagonal variant gives the same result when the cache is fresh and not otherwise.", "quantifier": "all matrices, vectors, number of sweeps", "why_tests_cant": "needs all systems", "anchors": ["data_structures/csr_matrix.cpp: jacobiSmooth, jacobiSmoothCacheDiagonalInverse, updateDiags"]}
{"id": "C34", "title": "Row scaling", "statement": "Scaling the rows of a system and its right-hand side by nonzero factors keeps its solution set.", "quantifier": "all matrices and factors", "why_tests_cant": "needs all systems", "anchors": ["data_structures/csr_matrix.cpp: scaleMatrixRows"]}
{"id": "C35", "title": "Diagonal dominance report", "statement": "The reported diagonal dominance is the minimum over the rows of |diagonal| divided by the sum of the off-diagonal magnitudes of the row, whatever the reduction order, so it exceeds 1 exactly for strictly diagonally dominant matrices.", "quantifier": "all matrices", "why_tests_cant": "min over rows", "anchors": ["data_structures/csr_matrix.cpp: diagonalDominance"]}
{"id": "C36", "title": "Host/device coherence", "statement": "For every history of array creations, destructions, swaps, host and device reads, full writes and read-writes in which no two arrays share a buffer, a read on either side returns the last value written on any side; on builds without a device this includes partial writes.", "quantifier": "all access histories", "why_tests_cant": "GPU builds cannot be unit tested exhaustively", "anchors": ["data_structures/managed_array.hpp: writeHost, readHost, readWriteHost, writeDevice, readDevice, readWriteDevice"]}
{"id": "C37", "title": "Partial write-only access", "statement": "Writing only part of an array through write-only access may lose the other part's latest values.", "quantifier": "existence of a history", "why_tests_cant": "a negative statement needs a witness", "anchors": ["data_structures/managed_array.hpp: writeDevice"]}
{"id": "C38", "title": "Memory manager safety", "statement": "For every history of array creation, view creation, swap, access and destruction in any order allowed by ownership, no buffer is freed twice or used after free, exactly the buffers of live arrays are allocated, and after all arrays are gone the manager has no entry and no buffer of its own left.", "quantifier": "all histories", "why_tests_cant": "histories are unbounded", "anchors": ["data_structures/memory_manager.cpp: allocate, allocateView, deallocateView, deallocate"]}
{"id": "C39", "title": "Reported array sizes", "statement": "The size an array reports equals the size it was created with as long as its byte count fits 31 bits, and is wrong beyond that.", "quantifier": "all sizes", "why_tests_cant": "a 2 GB array per test", "anchors": ["data_structures/memory_manager.cpp: allocate, size"]}
{"id": "C40", "title": "Unique names", "statement": "Names generated for uniquely named objects are pairwise distinct over a whole run of creations, and so are the names of the vectors of one array set; names of array owners, and hence of their arrays, are not.", "quantifier": "all creation histories", "why_tests_cant": "histories are unbounded", "anchors": ["utils/uniquely_named_object.hpp: UniquelyNamedObject", "data_structures/managed_array_owner.hpp"]}
{"id": "C41", "title": "Factory registry", "statement": "Looking up a name returns the first factory registered under it, and throws exactly when none was.", "quantifier": "all registration histories", "why_tests_cant": "histories are unbounded", "anchors": ["utils/registry.hpp: FactoryRegistry"]}
{"id": "C42", "title": "Observer notifications", "statement": "An observer of an event with frequency N is called exactly at the notifications number 0, N, 2N, ..., in registration order with the other observers of the event, and never for another event.", "quantifier": "all registration/notification histories and frequencies", "why_tests_cant": "histories are unbounded", "anchors": ["utils/observer.hpp: Observable"]}
{"id": "C43", "title": "Time loop reaches the final time", "statement": "With steps bounded below and a first step not passing the final time, a run without convergence criterion or step limit ends, with its time exactly the final time, and all steps but the last are those chosen by the controller (exact arithmetic).", "quantifier": "all initial times, step choices and final times", "why_tests_cant": "termination for every step sequence", "anchors": ["time_stepping/time_integrator.cpp: solve, computeNextTimestep"]}
{"id": "C44", "title": "Step limit and iteration count", "statement": "A run with a step limit N>0 performs at most N steps; the iteration counter increases by one per step and the reported time is the sum of the steps.", "quantifier": "all runs", "why_tests_cant": "unbounded runs", "anchors": ["time_stepping/time_integrator.cpp: solve, computeNextTimestep"]}
{"id": "C45", "title": "First step overshoot", "statement": "If the configured first step is larger than the remaining time the run does pass the final time and then takes a negative step back.", "quantifier": "existence", "why_tests_cant": "needs a witness", "anchors": ["time_stepping/time_integrator.cpp: solve, initialTimestep"]}
{"id": "C46", "title": "Convergence stop", "statement": "With a relative (absolute) tolerance the run stops after the first step whose monitored residual is below the tolerance and never earlier because of it.", "quantifier": "all residual histories", "why_tests_cant": "unbounded histories", "anchors": ["time_stepping/time_integrator.cpp: computeNextTimestep"]}
{"id": "C47", "title": "Save and log schedule", "statement": "With save interval N solution files are written after steps 1, N+1, 2N+1, ...; time-step observers run before solution observers in each step.", "quantifier": "all runs and intervals", "why_tests_cant": "unbounded runs", "anchors": ["initialization/puppeteer.cpp: attachTimeObservers, attachSolutionObservers", "time_stepping/time_integrator.cpp: solve"]}
{"id": "C48", "title": "RK3 is the third-order SSP scheme", "statement": "A RK3 step equals the Shu-Osher convex form of the third-order SSP Runge-Kutta method and satisfies the order conditions; it is exact for right-hand sides polynomial in time up to degree two.", "quantifier": "all right-hand sides, states, steps", "why_tests_cant": "needs all right-hand sides", "anchors": ["time_stepping/rk3ssp.cpp: doTimeStep"]}
{"id": "C49", "title": "ODE23 first-same-as-last", "statement": "In every history of steps of one solve, the first stage of an adaptive step equals the right-hand side at the current state; a step is one step of the Bogacki-Shampine scheme.", "quantifier": "all right-hand sides, step histories", "why_tests_cant": "unbounded histories", "anchors": ["time_stepping/ode23.cpp: doTimeStep"]}
{"id": "C50", "title": "Step-size controller bounds", "statement": "Every step chosen by the adaptive controller lies between the configured minimum and maximum, changes by at most the clamp factors, and the first three steps keep the initial size.", "quantifier": "all error histories and settings", "why_tests_cant": "unbounded histories", "anchors": ["time_stepping/ode23.cpp: PIDController::adaptStep, computeNextDT"]}
{"id": "C51", "title": "Multigrid cycle is well formed", "statement": "For every level count the cycle starts and ends on the finest level, never leaves the level range, moves one level per transfer and ends with every level visited; other level counts are rejected.", "quantifier": "all level counts", "why_tests_cant": "finite but must be exact", "anchors": ["time_stepping/bdf_multigrid.cpp: getMGCycle"]}
{"id": "C52", "title": "Multigrid fixed point", "statement": "If the fine-grid state solves the implicit equation and the smoother leaves solutions unchanged, a full multigrid cycle leaves the state unchanged (exact arithmetic).", "quantifier": "all equations, states and level counts", "why_tests_cant": "needs all equations", "anchors": ["time_stepping/bdf_multigrid.cpp: doTimeStepCycle, setCoarseStatesFromFine, applyRelaxedDelta, getUpdateDeltaOnFine"]}
{"id": "C53", "title": "Coarse equation consistency", "statement": "The coarse-level source makes the coarse right-hand side at the restricted state equal the restricted fine right-hand side.", "quantifier": "all states, equations", "why_tests_cant": "needs all states", "anchors": ["time_stepping/bdf_multigrid.cpp: setCoarseStatesFromFine, CoarsenedLevelRHS::evalRHSImpl"]}
{"id": "C54", "title": "Implicit step report", "statement": "The implicit step reports a cycle count between 1 and the maximum exactly when the residual ratio reached the tolerance, and zero otherwise; a zero initial residual is reported as failure.", "quantifier": "all residual histories", "why_tests_cant": "needs all histories", "anchors": ["time_stepping/bdf_multigrid.cpp: doTimeStepCycle"]}
{"id": "C55", "title": "Solution file round trip", "statement": "A field written to a solution file and read back on the same grid puts every interior value back in its own cell.", "quantifier": "all fields and grids (2D and 3D)", "why_tests_cant": "tests use one grid", "anchors": ["file_io/vtk_solution_writer.cpp: write", "file_io/vtk_solution_reader.cpp: setSolution"]}
{"id": "C56", "title": "Solution file names", "statement": "Distinct iterations below a million give distinct file names whose order follows the iteration (within the padded width); beyond that names collide.", "quantifier": "all iterations", "why_tests_cant": "needs all iterations", "anchors": ["file_io/vtk_solution_writer.cpp"]}
{"id": "C57", "title": "Option precedence", "statement": "A value given on the command line wins over the configuration file, which wins over the default; unknown options are rejected.", "quantifier": "all combinations of sources", "why_tests_cant": "all option/source combinations", "anchors": ["program_options/program_options_parser.cpp"]}
{"id": "C58", "title": "Residual report", "statement": "The reported relative residual lies in [0,1] and equals the current over the largest residual seen, for every residual history.", "quantifier": "all histories", "why_tests_cant": "unbounded histories", "anchors": ["governing_equations/residual_calculator.cpp"]}
{"id": "C59", "title": "Solution monitor", "statement": "The reported minimum is the least interior value and the reported maximum is the greatest interior value when some value is positive; for all-negative fields the maximum is wrong.", "quantifier": "all fields", "why_tests_cant": "needs all fields", "anchors": ["governing_equations/cahn_hilliard/cahn_hilliard_solution_monitor.cpp"]}
{"id": "C60", "title": "Random initial conditions", "statement": "Random initial conditions have interior mean exactly m (exact arithmetic) and deviate from m by at most twice the perturbation range.", "quantifier": "all random draws, grids and m", "why_tests_cant": "needs all draws", "anchors": ["governing_equations/cahn_hilliard/cahn_hilliard_initial_conditions.cpp"]}
{"id": "C61", "title": "Poisson problem", "statement": "For the Poisson test problem the discrete right-hand side at the exact solution equals the solution times the truncation factor; z halos hold the boundary values.", "quantifier": "all grids, cells", "why_tests_cant": "needs all grids", "anchors": ["governing_equations/poisson/poisson_3d_fd.cpp"]}
{"id": "C62", "title": "PETSc vector copies", "statement": "Copying a state into the solver's vector and back returns the interior unchanged and touches no halo cell.", "quantifier": "all states and grids", "why_tests_cant": "needs all states", "anchors": ["time_stepping/petsc_time_integrator.cpp: copyPetscVecToSolutionState, copySolutionStateToPetscVec"]}
{"id": "C63", "title": "Log line prefix", "statement": "Every line of a multi-line log message starts with the level's prefix.", "quantifier": "all messages", "why_tests_cant": "needs all strings", "anchors": ["logger/logger.cpp"]}
{"id": "C64", "title": "Configuration template round trip", "statement": "The configuration template the program prints, saved as a file and given to another run, restores the value of every option (doubles: the number printed with six digits).", "quantifier": "all command lines, configuration files and option values", "why_tests_cant": "all combinations of option values and texts", "anchors": ["program_options/program_options_parser.cpp:getConfigurationFileTemplate", "program_options/program_options_parser.cpp:parseInputOptions"]}
{"id": "C65", "title": "Where a log message goes", "statement": "After any history of calls a message is delivered exactly if logging is enabled and its level is at least the one in force: to the console, and to the log file opened last. A fatal message, and nothing else, ends the program.", "quantifier": "all histories of level changes, enabling, disabling, opening and closing of log files, updates and messages", "why_tests_cant": "depends on the whole history of calls", "anchors": ["logger/logger.cpp:setLogLevel", "logger/logger.cpp:initLogFile", "logger/logger.cpp:closeLogFile", "logger/logger.cpp:FatalMessage"]}
{"id": "C66", "title": "Log rows are complete and readable", "statement": "Every update of the log writes a row whose blank-separated words are the printed values of the time, residual and solution monitors in order; names are announced at the first update since opening and a header is printed at every fiftieth.", "quantifier": "all histories and all monitor contents whose printed values fit the column", "why_tests_cant": "all monitor values and histories; a value that is one character too long merges two columns", "anchors": ["logger/logger.cpp:updateLog"]}
{"id": "C67", "title": "Profiler accounting", "statement": "The profile has exactly one entry per function, with the number of its calls and the sum of its times; the report lists every entry once, in descending order, and the slowest function has 100 percent.", "quantifier": "all sequences of calls, nested and interleaved in any way, and every order of the hash map", "why_tests_cant": "any interleaving of calls and any hash order", "anchors": ["logger/profiler.cpp:tic", "logger/profiler.cpp:toc", "logger/profiler.cpp:finalize"]}
{"id": "C68", "title": "Restart continues the run", "statement": "A run with the fixed-step integrator that is restarted from the solution file written after any of its steps makes exactly the steps the uninterrupted run makes after that one: same times, step sizes, step numbers and interior values, whatever the observers and the fresh arrays contain.", "quantifier": "all runs, all steps to restart after, all grids with the halo no wider than the grid, all parameters, observers and contents of new arrays; values, time and step size must survive printing and a full step must fit before the final time", "why_tests_cant": "every crash point of every run; hidden state (halo cells, stages, counters) could leak into the result on some histories only", "anchors": ["file_io/vtk_solution_reader.cpp:setSolution", "file_io/vtk_solution_reader.cpp:setInitialTimeStep", "file_io/vtk_solution_writer.cpp:write_solution_to_vtk", "initialization/puppeteer.cpp:timeIntegratorFactory", "time_stepping/time_integrator.cpp:solve"]}
{"id": "C69", "title": "What the driver builds", "statement": "The program starts exactly when boundary names, dimension, equations and integrator are known and fit together, and then solves the equations asked for on the grid asked for; with a restart file the grid comes from the file and the resolution and extent options have no effect; a file of the other dimension is refused. It never starts undefined.", "quantifier": "all configurations, registries and restart files", "why_tests_cant": "all combinations of option values", "anchors": ["initialization/puppeteer.cpp:geomFactory", "initialization/puppeteer.cpp:rhsFactory", "initialization/puppeteer.cpp:initialConditionsFactory", "initialization/puppeteer.cpp:timeIntegratorFactory", "initialization/puppeteer.cpp:parseBC"]}
{"id": "C70", "title": "Interrupting a run with the step limit", "statement": "Lowering the step limit cuts a run short and changes nothing else: the same steps are made, with the same callbacks, up to the step with that number; a limit that is not reached has no effect. With the fixed-step integrator the final file of the shortened run is the file of its last step, and the program started from it with the original limit makes exactly the remaining steps of the uninterrupted run.", "quantifier": "all runs, integrators, callbacks and limits; for the continuation all runs of the fixed-step integrator without tolerances, all steps to stop after before the one that reaches the final time, all grids and parameters, values that survive printing", "why_tests_cant": "every stopping point of every run", "anchors": ["initialization/puppeteer.cpp:run", "time_stepping/time_integrator.cpp:solve", "time_stepping/time_integrator.cpp:computeNextTimestep", "file_io/vtk_solution_writer.cpp:write_solution_to_vtk"]}
{"id": "C71", "title": "What a PETSc time stepper integrates", "statement": "With a PETSc integrator the program is a time stepper for the discrete Cahn-Hilliard equation on vectors of cell values: whatever method PETSc runs, every right-hand side it asks for is the right-hand side of the vector it passes, whatever the program's arrays, halo cells and matrix contained before; every Jacobian asked for at the vector whose right-hand side was asked for last is the derivative of the right-hand side at that vector; the solution state at the end is the vector the method left. The run is asked to stop after a step exactly when a set tolerance is met by the reported residual. With sigma zero and periodic boundaries every linear method conserves the mean exactly.", "quantifier": "all sequences of calls the time stepper makes to the registered functions, adaptively chosen; all grids, parameters, fields, initial contents of scratch and halo cells; observers that read interior cells", "why_tests_cant": "the sequence of calls is chosen by PETSc from the method, the tolerances and user options; a test sees a few methods on one grid", "anchors": ["time_stepping/petsc_time_integrator.cpp:PetscRHSFunction", "time_stepping/petsc_time_integrator.cpp:PetscRHSJacobian", "time_stepping/petsc_time_integrator.cpp:PetscTSPostStep", "time_stepping/petsc_time_integrator.cpp:PetscTSMonitor", "time_stepping/petsc_time_integrator.cpp:solve", "governing_equations/cahn_hilliard/cahn_hilliard_3d_fd.cpp:evalJacobian"]}
{"id": "C72", "title": "What a run of the program does", "statement": "Started with options that ask for the Cahn-Hilliard equations, an explicit integrator and a random initial field, the program finishes after at most the step limit: the states it goes through are those of the chosen Runge-Kutta method applied to the discrete equation on the grid the options describe, the steps have the configured size (or, for the adaptive method, sizes within the configured limits), the last one cut to the final time; the solution files are, in order, one for every save_every-th step and one final file, with the names, step numbers, times and fields of those steps; the log has one row for every log_frequency-th step, with step number, time, step size, residuals and extrema of that step, and for the adaptive method a further column time_err. With no Neumann boundary every solution file's field has exactly the mean m. The logging options do not change the solution files.", "quantifier": "all command lines and configuration files whose parse gives such options; all grids, parameters, step limits, save and log frequencies, random draws, reduction orders, contents of uninitialised memory", "why_tests_cant": "the options are many and independent, a run is arbitrarily long, and the tests exercise the parts, not the program", "anchors": ["maDGiCart_main.cpp:main", "initialization/puppeteer.cpp:Puppeteer", "initialization/puppeteer.cpp:run", "initialization/puppeteer.cpp:attachSolutionObservers", "time_stepping/time_integrator.cpp:solve", "time_stepping/time_integrator_options.hpp:getTimeOptionsUsingGlobalOptions", "program_options/program_options.hpp:domain_y_end"]}
{"id": "C73", "title": "Numbers survive solution files", "statement": "Every double written to a solution file as a field value or coordinate is read back bit for bit, including zeros of both signs, subnormal numbers, infinities and NaN; so reading a solution file restores every interior value exactly, whatever the values. Any decimal number in a file, with a point or without, is read as the double nearest to it, or rejected if too large; any other text but inf, infinity and nan is rejected. Time and step size are written with seven significant digits: values given by at most seven decimal digits are read back exactly, all others with a relative error of at most 5.1e-7.", "quantifier": "all doubles, all decimal numbers, all grids and fields", "why_tests_cant": "there are 2^64 doubles and unboundedly many decimal texts; rounding failures sit on single values", "anchors": ["file_io/vtk_solution_writer.cpp:write_solution_to_vtk_2d", "file_io/vtk_solution_writer.cpp:write_solution_to_vtk_3d", "file_io/vtk_solution_reader.cpp:VTKSolutionReader", "typedefs.hpp:real_wp"]}
{"id": "C74", "title": "Restarting at a time that does not survive printing", "statement": "A run of the Cahn-Hilliard equations with fixed steps in doubles, restarted from a file it wrote after some step, starts with that step's number, step size and interior values bit for bit and with a time that is off by at most 5.1e-7 of its value. The solution after each further step is bit for bit the one of the uninterrupted run, as long as both runs take steps of the same size. The runs may make different numbers of steps, and a run restarted after its last full step passes the final time and then steps back.", "quantifier": "all grids, boundary conditions, right-hand side variants, parameters, solutions in doubles, times between 1e-300 and 1e300, step sizes of at most seven digits, numbers of steps before and after the restart, and observers", "why_tests_cant": "the time is rounded in the file, so whether the continuation agrees depends on every value of the state and on every later step", "anchors": ["time_stepping/time_integrator.cpp:TimeIntegrator::solve", "initialization/puppeteer.cpp", "file_io/vtk_solution_writer.cpp", "file_io/vtk_solution_reader.cpp", "governing_equations/initial_conditions_from_file.cpp"]}
{"id": "C75", "title": "The whole program restarted from a solution file", "statement": "Started with initial_condition_file naming a solution file, the program ends normally and continues from that file: grid, field, step number, time and step size are the file's, whatever the options for them say, while the kinds of boundary, the parameters of the equations, the final time and the step limit are those of the options. It logs the file's name, saves files and logs rows counted from the restart, and keeps the mean the file has. Restarted from a file of an earlier rk3ssp run, with the numbers read back as they were, it writes the same final file under the same name, and with save_every 1 exactly the earlier run's later files.", "quantifier": "all command lines with these settings, grids, boundary conditions, parameters, files with readable numbers, steps at which the file was written, numbers of steps, and for the comparison of files all number systems", "why_tests_cant": "whether a restart reproduces the files of the uninterrupted run depends on every option, on the step at which it happens and on all later steps", "anchors": ["maDGiCart_main.cpp:main", "initialization/puppeteer.cpp:Puppeteer", "initialization/puppeteer.cpp:geomFactory", "initialization/puppeteer.cpp:timeIntegratorFactory", "file_io/vtk_solution_reader.cpp:VTKSolutionReader", "governing_equations/initial_conditions_from_file.cpp", "time_stepping/time_integrator.cpp:TimeIntegrator::solve"]}
{"id": "C76", "title": "Rounding error of sums and residual norms", "statement": "In double precision, the result of a parallel sum differs from the exact sum of the summands by at most n 2^-53 times the sum of their absolute values, whatever the number of threads, the order and the bracketing; two such results differ by at most twice that. If the residual norm reported for an equation over n cells is finite and the true root mean square is at least 2^-500, its relative error is at most (2 n + 16) 2^-53. A finite sum has only finite summands and a finite norm only finite cells: a NaN or infinity in the interior is never hidden.", "quantifier": "all lists of doubles, thread counts, orders and bracketings; all grids up to 2^24 cells and all fields, 2D and 3D", "why_tests_cant": "the order of a parallel reduction changes from run to run, and the bound must hold for every field", "anchors": ["data_structures/exec_includes.hpp:ReduceSumReal", "governing_equations/residual_calculator.cpp:residual_calculator"]}
{"id": "C77", "title": "Rounding error of the Cahn-Hilliard rate and of the mean over a run", "statement": "In double precision, every finite value the right-hand side computes is within 31 * 2^-53 times an explicit magnitude (|eps2| 147 b/h^4 + 25 (b^3 + b)/h^2 + |sigma| (b + |m|), b the largest |c|) of the exact difference formula at the same values, for every kernel variant. Over a run of RK3 steps with sigma >= 0 and sigma dt <= 1 in which all values stay finite and bounded by b, the mean of the doubles departs from conservation (sigma = 0) or from its approach to m by at most 128 * 2^-53 * (b + dt magnitude) per step: rounding errors add up linearly and are not amplified.", "quantifier": "all grids with cell sizes between 2^-250 and 2^250, all fields of doubles, parameters, kernel variants, numbers of steps and step sizes, 2D and 3D; boundary types any for the rate, periodic or dirichlet for the mean", "why_tests_cant": "a tolerance checked on a few fields says nothing about others; accumulation over arbitrarily many steps cannot be run", "anchors": ["governing_equations/cahn_hilliard/cahn_hilliard_3d_fd.cpp:evalRHSImpl", "governing_equations/cahn_hilliard/cahn_hilliard_2d_fd.cpp:evalRHSImpl", "spatial_discretization/discretization_3d_cart.cpp:laplacian", "time_stepping/rk3ssp.cpp:RK3SSP::doTimeStep"]}
{"id": "C78", "title": "How the options set up a PETSc time stepper", "statement": "Before the run PETSc is initialised once, with the words of the petsc_options string. The time stepper then has the initial time, step number and size, the end time and step limit (0: none), the step control and the tolerances of the program's options, ends exactly at the final time and calls the program's right-hand side, monitor and stop rule; time stepper options the user gives in petsc_options replace these. The solvers see the user's options except for the values the implicit integrators impose. Not so: a fixed step restarted from a file has the size in the file; petsc_jacobian_bdf selects BDF; the colouring given to the nonlinear solver by petsc_jfnk_bdf exists when it is used.", "quantifier": "all petsc_options strings, all values of the program's time options, all three PETSc integrators", "why_tests_cant": "the outcome depends on the order of some forty calls and on a string the user is free to choose; the repository's tests fix a few option sets", "anchors": ["time_stepping/petsc_environment.cpp:PetscEnvironment::PetscEnvironment", "time_stepping/petsc_time_integrator.cpp:initializePetsc", "time_stepping/petsc_time_integrator.cpp:initializePetscJFNK", "time_stepping/petsc_time_integrator.cpp:initializePetscJacobian"]}
{"id": "C79", "title": "Runs that a residual tolerance ends", "statement": "With converged_rel_tol or converged_abs_tol set, a new or restarted run ends normally. Its steps, files and log are those of a run without tolerances up to its last step. It goes on after a step as long as the residual logged last is not below the absolute tolerance, nor below the relative one as a fraction of the greatest residual logged so far, and it ends before its step limit and its final time only if it is; then the log ends with a message for each tolerance met. Not so: how often the program logs has no influence on the solution files; a run with a relative tolerance restarted from its own file writes the files that follow in the first run.", "quantifier": "all settings, tolerances, grids, random draws and restart files, both built-in explicit integrators, 2D and 3D", "why_tests_cant": "when a run ends depends on the whole history of residuals, the logging frequency and the options together", "anchors": ["time_stepping/time_integrator.cpp:TimeIntegrator::computeNextTimestep", "initialization/puppeteer.cpp:Puppeteer::attachResidualObservers", "logger/logger.hpp:Logger::getResidualMonitor"]}
{"id": "C80", "title": "What the program refuses", "statement": "A run with an unknown boundary type, number of dimensions, equation or 3D kernel ends with a fatal message before its first step; one with an unknown time integrator, or with Poisson's equation in 2D, ends with an exception before its first step. The CFL time step option ends the run with a fatal message. --help exits with code 0, a configuration file that cannot be opened with code 1; an unknown, ambiguous or repeated option or a text that is no value of its type ends the program with an exception. A 2D run does not accept the solution file of a 3D run, nor a 3D run that of a 2D run. Not so: a grid without cells in x, or a restart file that is missing or not XML, is refused (both are undefined behaviour).", "quantifier": "all command lines, configuration files, option values, restart files and numbers of steps", "why_tests_cant": "the order of the checks and of the uses of the options decides which ending comes first, for every combination of the other options", "anchors": ["initialization/puppeteer.cpp:Puppeteer::Puppeteer", "program_options/program_options_parser.cpp:ProgramOptionsParser::parseInputOptions", "file_io/vtk_solution_reader.cpp:VTKSolutionReader", "utils/registry.hpp:FactoryRegistry::lookup", "time_stepping/time_integrator.cpp:TimeIntegrator::initialTimestep"]}
{"id": "C81", "title": "A solution file is well-formed XML that says what the writer meant", "statement": "The characters written to a solution file form a well-formed XML document, whatever the values, also infinite ones and ones that are not numbers, and the XML library the reader uses returns for them the very elements, attributes and texts that the file properties (C55, C56) and the restart properties (C68, C72, C74) speak of.", "quantifier": "all grids, fields of doubles, step numbers, times and step sizes, in 2D and 3D", "why_tests_cant": "the characters depend on every value that is written; one special character in one of them would make the whole file unreadable", "anchors": ["file_io/vtk_solution_writer.cpp:write_solution_to_vtk_2d", "file_io/vtk_solution_writer.cpp:write_solution_to_vtk_3d", "file_io/vtk_solution_reader.cpp:VTKSolutionReader"]}
{"id": "C82", "title": "A solution file that is cut off is never read in part", "statement": "If a run is killed while it writes a solution file, or the disk is full, so that only a beginning of the file exists, then a reader finds either nothing at all or, if only the last line end is missing, the complete solution; never a part of the data. Not so: that the program refuses to restart from such a file (it dereferences a null pointer).", "quantifier": "all crash points within all solution files", "why_tests_cant": "there is one case per character of every possible file", "anchors": ["file_io/vtk_solution_writer.cpp:write_solution_to_vtk_3d", "file_io/vtk_solution_reader.cpp:VTKSolutionReader", "initialization/puppeteer.cpp:Puppeteer::Puppeteer"]}
{"id": "C83", "title": "What a restart makes of a solution file with too few or too many numbers", "statement": "A solution file is refused if it does not have the coordinates of as many vertices as its extent says or if its extent does not start at zero, and a word in it that is not a number ends the reader with an exception; surplus cell values are ignored, the first ones going to the cells in the order of the file. Not so: that every incomplete file is refused (one or two surplus coordinates, a missing cell value, an extent with fewer than six numbers or a list without any text make the reader read beyond the end of a list or from a null pointer).", "quantifier": "all grids, all lists of words in the place of the extent, the coordinates and the cell values, however they are separated, in 2D and 3D", "why_tests_cant": "a file can be damaged or edited in arbitrarily many ways", "anchors": ["file_io/vtk_solution_reader.cpp:VTKSolutionReader::getCartesianDomain", "file_io/vtk_solution_reader.cpp:VTKSolutionReader::setSolution", "file_io/vtk_solution_reader.cpp:VTKSolutionReader::setInitialTimeStep"]}
{"id": "C84", "title": "A whole run with the implicit or the steady integrator", "statement": "A 3D Cahn-Hilliard run with time_integrator bdf1 or steady, whose grid can be coarsened mg_levels - 1 times, ends normally. It makes the steps of the time loop with the step size given; each step is a number of multigrid V-cycles on backward Euler's (or the steady) equation, ending as soon as the residual has fallen to mg_rel_tol times the residual before the first cycle, and at the latest after mg_max_cycles; the solution files and log rows are those of these states, in order, and without a Neumann boundary the mean concentration in every file is the option m. Options with which the integrator cannot be made end the program before the first step, and so does every choice of options in two dimensions, and every other integrator is unaffected by those options.", "quantifier": "all option values read from any command line and configuration files, all grids that can be coarsened, all boundary conditions, all numbers of steps and cycles, all random initial fields", "why_tests_cant": "a test runs a few options on small grids for a few steps; the number of cycles depends on the data", "anchors": ["time_stepping/bdf_multigrid.cpp:BDFMultigrid::doTimeStep", "time_stepping/bdf_multigrid.cpp:BDFMultigrid::BDFMultigrid", "time_stepping/time_integrator.cpp:TimeIntegrator::solve", "initialization/puppeteer.cpp:Puppeteer::Puppeteer", "initialization/puppeteer.cpp:Puppeteer::run", "governing_equations/time_integrable_rhs.hpp:TimeIntegrableRHS::cflScale"]}
{"id": "C85", "title": "A whole run of Poisson's equation", "statement": "A run with equation_type poisson in 3D and an explicit integrator (rk3ssp, ode23) ends normally. It starts from zeros and steps u' = Lap u + 3 sin x cos y cos z with the method named, periodic in x and y and with the exact solution in the cells outside the domain in z, whatever boundary conditions, concentration m or other Cahn-Hilliard parameters the options name; its solution files and log rows are those of these fields, in order, up to the step limit, the final time or the tolerances. In two dimensions the program ends with an exception before the first step.", "quantifier": "all option values read from any command line and configuration files, all grids of at least two cells per direction, all boundary conditions named, all numbers of steps, all tolerances", "why_tests_cant": "a test runs one grid for a few steps and compares the last field only; that the boundary options and the initial condition have no effect must hold for all of them", "anchors": ["governing_equations/poisson/poisson_3d_fd.cpp:Poisson3DFD::evalRHSImpl", "governing_equations/constant_initial_conditions.cpp:ConstantInitialConditions::set", "initialization/puppeteer.cpp:Puppeteer::Puppeteer", "initialization/puppeteer.cpp:Puppeteer::run", "time_stepping/time_integrator.cpp:TimeIntegrator::solve"]}
{"id": "C86", "title": "A run of Poisson's equation approaches the solution", "statement": "With rk3ssp and a time step of at most a sixth of the square of the spacing h, the values in every solution file of a Poisson run differ from any field that the discrete equation leaves in place up to tau by at most L^2 tau / 8 plus a part that decays like exp(-8 (t - t0) / L^2), L being the distance between the planes with prescribed values. If the domain is a number of periods long in x and y, this bounds the distance to the exact solution sin x cos y cos z: second order in h, plus the decaying part. On every grid the discrete equation has exactly one solution; the values in the files approach it exponentially, and any field is as near to it as its rate of change is small, up to the factor L^2/8.", "quantifier": "all grids, all step sizes up to the limit, all numbers of steps, all reference fields, all options read from any command line", "why_tests_cant": "a test observes the residual fall on one grid; the rate and the bound must hold for every grid, step size and time", "anchors": ["governing_equations/poisson/poisson_3d_fd.cpp:Poisson3DFD::evalRHSImpl", "time_stepping/rk3ssp.cpp:RK3SSP::doTimeStep", "initialization/puppeteer.cpp:Puppeteer::run", "spatial_discretization/discretization_3d_cart.cpp:Discretization3DCart::laplacian"]}
{"id": "C87", "title": "Poisson's equation with the implicit or the steady integrator", "statement": "A 3D Poisson run with time_integrator bdf1 or steady, whose grid can be coarsened mg_levels - 1 times, ends normally. It starts from zeros; each step is a number of multigrid V-cycles (at least one, if one is allowed) on backward Euler's or the steady equation, ending as soon as the residual has fallen to mg_rel_tol times the residual before the first cycle, and at the latest after mg_max_cycles; the equation on each level is Poisson's with the boundary values of that level's grid, and the smoothing steps go with the square of its spacing. Solution files and log rows are those of these states. Options with which the integrator cannot be made end the program before the first step. Values that solve the discrete equations are left alone by every step, whatever the number of levels. With one level, mg_cfl at most 1/6 and the steady integrator, the values in every file approach the one solution of the discrete equations: the distance decays exponentially in the number of smoothings made. If the box is as long as some full circles in x and in y, they approach the exact solution sin x cos y cos z, up to an error of the order of the square of the spacing.", "quantifier": "all option values read from any command line and configuration files, all grids that can be coarsened, all numbers of steps, cycles, smoothings and levels, all step sizes", "why_tests_cant": "a test runs a few options on one grid and watches the residual; the number of cycles depends on the data, and the rate must hold for every grid and every number of steps", "anchors": ["time_stepping/bdf_multigrid.cpp:BDFMultigrid::doTimeStep", "time_stepping/bdf_multigrid.cpp:BDFMultigrid::BDFMultigrid", "governing_equations/poisson/poisson_3d_fd.hpp:Poisson3DFD::cflScale", "governing_equations/poisson/poisson_3d_fd.cpp:Poisson3DFD::evalRHSImpl", "time_stepping/ode23_smoother.cpp:ODE23Smoother::doSmooth", "initialization/puppeteer.cpp:Puppeteer::run"]}
{"id": "C88", "title": "Restarting with the implicit integrator or with Poisson's equation", "statement": "A 3D run that restarts from a solution file with time_integrator bdf1 or steady continues on the grid of the file, from its values, step number, time and step size; its steps are those of a run with these options, and its files and log rows are those of the states reached. If the values in the file have the mean m and no boundary is a wall, so have those in all files written. Whether the grid can be coarsened often enough is decided by the grid in the file, not by the options; if it cannot, the program stops before the first step. Restarts of Poisson's equation do the same, with every integrator but PETSc's. It does not hold that an interrupted and restarted implicit run computes what the uninterrupted one does.", "quantifier": "all solution files whose numbers survive printing, all option values read from any command line and configuration files, all numbers of steps, cycles, smoothings and levels", "why_tests_cant": "a test restarts one run from one file; what the restarted run computes depends on the file, the grid in it and the options, and that nothing but the file is carried over must hold for every history", "anchors": ["initialization/puppeteer.cpp:Puppeteer::Puppeteer", "initialization/puppeteer.cpp:Puppeteer::initialConditionsFactory", "initialization/puppeteer.cpp:Puppeteer::geomFactory", "governing_equations/initial_conditions_from_file.cpp:InitialConditionsFromFile::set", "time_stepping/bdf_multigrid.cpp:BDFMultigrid::BDFMultigrid", "time_stepping/ode23_smoother.hpp:ODE23Smoother::dt_"]}
{"id": "C89", "title": "No step limit, no log frequency", "statement": "max_time_steps 0, which the code describes as no limit, is not usable: a run with it never ends normally, whatever the equation, the integrator (other than PETSc's), the restart file and the other options. A run of the Cahn-Hilliard equation with it and with rk3ssp or ode23 has undefined behaviour when it writes its first solution file, that is at the first step if files are saved, and at its end otherwise. The same holds of log_frequency 0, with which the first step has undefined behaviour.", "quantifier": "all option values read from any command line and configuration files, all equations, dimensions, restart files, all numbers of steps, all arithmetics", "why_tests_cant": "undefined behaviour need not show in a test, and that no other option, file or length of run avoids it is a statement about all of them", "anchors": ["time_stepping/time_integrator.cpp:TimeIntegrator::solve", "file_io/vtk_solution_writer.cpp:write_solution_to_vtk", "utils/observer.hpp:Observable::notifyObservers", "initialization/puppeteer.cpp:Puppeteer::run", "program_options/program_options.hpp:max_time_steps"]}
{"id": "C90", "title": "A log reads as a table", "statement": "Whatever messages and rows are written to a log file, in whatever order and however many, a reader that drops comments, skips blank lines and splits the others at blanks (as plot_history.py does) sees the names of the columns first, then one line with the printed values for each row, and nothing else. For runs the columns are iter, time, dt, with ode23 also time_err, then res_c, abs_res, rel_res, min_c, max_c and grad_c_mag. The banner above the table is all comments and shows the host, the user, the working directory and the processor. This fails if the working directory's name has a line end in it, and the banner has undefined behaviour if the host's name has 64 characters.", "quantifier": "all sequences of messages and rows of any texts and numbers of lines, all time stamps, all option values of a run, all surroundings the banner is made from", "why_tests_cant": "that no message, header or banner line can be taken for a row, for every text and every number of rows, is a statement about all texts; a test reads some logs", "anchors": ["logger/logger.cpp:Logger::updateLog", "logger/logger.cpp:Logger::initLogFile", "logger/logger.cpp:Logger::makeBanner", "parallel/machine.cpp:Machine::getProcessorModel", "parallel/machine.cpp:Machine::getHostname", "plot_history.py:main"]}
