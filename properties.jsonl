{"id": "C01", "title": "2D Cauchy-Green tensor is F^T F", "statement": "compute_cauchy_green_2x2 returns, for every Jacobian F in the stack and in the same order, exactly the right Cauchy-Green tensor F^T F; that tensor is symmetric and positive semi-definite.", "quantifier": "every stack length and every real 2x2 Jacobian", "why_tests_cant": "a test samples a few Jacobians; a wrong entry can coincide with the right one on symmetric or diagonal samples", "anchors": ["src/pyftle/ftle.py:compute_cauchy_green_2x2"]}
{"id": "C02", "title": "3D Cauchy-Green tensor is F^T F", "statement": "compute_cauchy_green_3x3 returns the right Cauchy-Green tensor F^T F it documents.", "quantifier": "every real 3x3 Jacobian", "why_tests_cant": "the existing test compares against F F^T, i.e. against the code itself", "anchors": ["src/pyftle/ftle.py:compute_cauchy_green_3x3"]}
{"id": "C03", "title": "Left/right Cauchy-Green choice is invisible in 3D FTLE", "statement": "Whatever product order is used in 3D, F F^T and F^T F have the same characteristic polynomial, so the eigenvalues used by compute_ftle_3x3 are those of F^T F.", "quantifier": "every real 3x3 Jacobian", "why_tests_cant": "equality of spectra is an algebraic identity in nine unknowns", "anchors": ["src/pyftle/ftle.py:compute_cauchy_green_3x3", "src/pyftle/ftle.py:max_eigenvalue_3x3"]}
{"id": "C04", "title": "2D largest eigenvalue is the squared operator norm", "statement": "max_eigenvalue_2x2 applied to the Cauchy-Green tensor of F returns the largest eigenvalue of F^T F, i.e. the square of max over unit u of |F u|; the square root it takes is always of a non-negative number.", "quantifier": "every real 2x2 Jacobian and every direction u", "why_tests_cant": "the maximum ranges over a continuum of directions", "anchors": ["src/pyftle/ftle.py:max_eigenvalue_2x2"]}
{"id": "C05", "title": "2D FTLE equals ln||F||/T", "statement": "compute_ftle_2x2 returns one value per Jacobian, equal to (1/T) ln ||F|| with ||.|| the spectral norm; for F = 0 it is -inf (T>0); for T = 0 it raises ZeroDivisionError.", "quantifier": "every stack of real 2x2 Jacobians and every period T", "why_tests_cant": "continuum of inputs plus singular cases", "anchors": ["src/pyftle/ftle.py:compute_ftle_2x2"]}
{"id": "C06", "title": "3D FTLE equals ln||F||/T", "statement": "compute_ftle_3x3 returns (1/T) ln ||F|| with ||.|| the spectral norm, provided numpy's eigvals returns the three roots of the characteristic polynomial.", "quantifier": "every real 3x3 Jacobian, every T, every eigenvalue oracle that returns the roots in any order", "why_tests_cant": "continuum of inputs; depends on no ordering guaranteed by eigvals", "anchors": ["src/pyftle/ftle.py:compute_ftle_3x3", "src/pyftle/ftle.py:max_eigenvalue_3x3"]}
{"id": "C07", "title": "FTLE is non-negative for volume-preserving maps and zero for isometries", "statement": "If |det F| >= 1 then the 2D and 3D FTLE values are >= 0 for T>0; if F is orthogonal the FTLE is exactly 0.", "quantifier": "every F with |det F| >= 1, every orthogonal F, every T>0", "why_tests_cant": "inequality over a continuum", "anchors": ["src/pyftle/ftle.py:compute_ftle_2x2", "src/pyftle/ftle.py:compute_ftle_3x3"]}
{"id": "C08", "title": "FTLE does not depend on the coordinate frame", "statement": "Replacing F by Q F or F Q with Q orthogonal leaves the FTLE unchanged, and replacing F by c F adds ln|c|/T.", "quantifier": "every F, every orthogonal Q, every c<>0", "why_tests_cant": "continuous group of transformations", "anchors": ["src/pyftle/ftle.py:compute_ftle_2x2", "src/pyftle/ftle.py:compute_ftle_3x3"]}
{"id": "C09", "title": "FTLE of a finite non-singular Jacobian is a number", "statement": "In binary64, compute_ftle_2x2 returns a finite value for every finite, well-scaled, invertible Jacobian.", "quantifier": "every binary64 Jacobian", "why_tests_cant": "rounding turns a mathematically non-negative discriminant negative only on special bit patterns", "anchors": ["src/pyftle/ftle.py:max_eigenvalue_2x2", "src/pyftle/ftle.py:compute_ftle_2x2"]}
{"id": "C10", "title": "Cauchy-Green tensor is bitwise symmetric in binary64", "statement": "compute_cauchy_green_2x2 returns bitwise equal off-diagonal entries whatever the rounding.", "quantifier": "every binary64 2x2 matrix including infinities and NaN", "why_tests_cant": "2^256 inputs", "anchors": ["src/pyftle/ftle.py:compute_cauchy_green_2x2"]}
{"id": "C11", "title": "Flow-map Jacobian is exact on affine maps", "statement": "If the current positions are the image of axis-aligned seed stencils (non-zero spacing, any spacing per group and direction) under an affine map x -> M x + c, compute_flow_map_jacobian_2x2/3x3 returns M for every group.", "quantifier": "every number of groups, every spacing, every M and c, both dimensions", "why_tests_cant": "continuum of maps and any number of groups", "anchors": ["src/pyftle/cauchy_green.py:compute_flow_map_jacobian_2x2", "src/pyftle/cauchy_green.py:compute_flow_map_jacobian_3x3"]}
{"id": "C12", "title": "Jacobian fails loudly exactly on degenerate stencils", "statement": "compute_flow_map_jacobian_2x2/3x3 raises ZeroDivisionError if and only if some group has zero x-extent of right-left, zero y-extent of top-bottom (or zero z-extent of front-back in 3D); otherwise it returns one matrix per group.", "quantifier": "every particle set", "why_tests_cant": "must hold for a degenerate group anywhere in an arbitrarily long list", "anchors": ["src/pyftle/cauchy_green.py:_compute_flow_map_jacobian_in_numba", "src/pyftle/cauchy_green.py:_compute_flow_map_jacobian_in_numba_3x3"]}
{"id": "C13", "title": "Seed positions are laid out in blocks left,right,top,bottom(,front,back)", "statement": "For NeighboringParticles built from N left rows, then N right, top, bottom (front, back) rows: len is N, delta_right_left[i] = right[i]-left[i], delta_top_bottom[i] = top[i]-bottom[i], delta_front_back[i] = front[i]-back[i] in 3D, and centroid[i] is the mean of the group's members.", "quantifier": "every N and all coordinates, 2D and 3D", "why_tests_cant": "index arithmetic for arbitrary N; the tests use N=1 where every layout coincides", "anchors": ["src/pyftle/particles.py:NeighboringParticles", "src/pyftle/particles.py:compute_delta_right_left", "src/pyftle/particles.py:compute_delta_top_bottom", "src/pyftle/particles.py:compute_delta_front_back", "src/pyftle/particles.py:compute_centroid"]}
{"id": "C14", "title": "Seed positions are consecutive groups [right,left,top,bottom] as documented", "statement": "As the class docstring says, rows 4i..4i+3 of positions are the right, left, top and bottom neighbours of group i.", "quantifier": "every N and all coordinates", "why_tests_cant": "N=1 tests cannot tell block from interleaved layout", "anchors": ["src/pyftle/particles.py:NeighboringParticles"]}
{"id": "C15", "title": "Malformed particle arrays are rejected", "statement": "Constructing NeighboringParticles succeeds if and only if the row count is a multiple of 4 (2 columns) or of 6 (3 columns).", "quantifier": "every row count, 2 or 3 columns", "why_tests_cant": "unbounded row counts", "anchors": ["src/pyftle/particles.py:NeighboringParticles.__post_init__"]}
{"id": "C16", "title": "Reference geometry is frozen while current geometry follows the particles", "statement": "After any sequence of integration steps with any integrator, the initial_* attributes still describe the seeds, while delta_* and centroid describe the current positions.", "quantifier": "every history of integrate calls", "why_tests_cant": "arbitrary histories with in-place mutation", "anchors": ["src/pyftle/particles.py:NeighboringParticles", "src/pyftle/integrate.py"]}
{"id": "C17", "title": "delta_front_back is empty in 2D", "statement": "In 2D, the delta_front_back property returns an empty array as documented.", "quantifier": "every 2D particle set", "why_tests_cant": "no test reads this property in 2D", "anchors": ["src/pyftle/particles.py:NeighboringParticles.delta_front_back", "src/pyftle/particles.py:compute_delta_front_back"]}
{"id": "C18", "title": "Each integrator performs its textbook step", "statement": "One integrate(h, particles) call moves every particle x to x+h v(x) (Euler), x+h(3/2 v(x) - 1/2 v_prev) (AB2 after the first call, Euler on the first), x+h/6(k1+2k2+2k3+k4) with the classical RK4 stages, v being the interpolator's field at call time.", "quantifier": "every particle array, h, pointwise velocity field and any prior state of the internal buffers", "why_tests_cant": "arbitrary prior buffer contents and sizes", "anchors": ["src/pyftle/integrate.py:EulerIntegrator", "src/pyftle/integrate.py:AdamsBashforth2Integrator", "src/pyftle/integrate.py:RungeKutta4Integrator"]}
{"id": "C19", "title": "Scratch buffers never leak into results", "statement": "Euler and RK4 results depend only on the arguments of the call and the field, not on previous calls or uninitialised memory; AB2 depends in addition only on the previous call's velocity.", "quantifier": "every history of earlier calls and every content of freshly allocated memory", "why_tests_cant": "uninitialised memory and unbounded histories", "anchors": ["src/pyftle/integrate.py"]}
{"id": "C20", "title": "AB2 rejects a change of particle count between calls", "statement": "An AB2 integrator used with a particle set of a different size than in its previous call raises an error and leaves the positions unchanged; it never mixes velocities of different particles.", "quantifier": "every history and every pair of sizes", "why_tests_cant": "histories", "anchors": ["src/pyftle/integrate.py:AdamsBashforth2Integrator.integrate"]}
{"id": "C21", "title": "Particles do not influence each other", "statement": "With a pointwise field, advecting a set of particles equals advecting each particle alone: any permutation or subset commutes with any number of steps.", "quantifier": "every particle set, every number of steps, every integrator", "why_tests_cant": "all subsets/permutations and step counts", "anchors": ["src/pyftle/integrate.py"]}
{"id": "C22", "title": "Uniform flow is integrated exactly", "statement": "In a constant field c every integrator moves every particle by exactly n*h*c after n steps.", "quantifier": "every n, h, c and particle set", "why_tests_cant": "induction over n", "anchors": ["src/pyftle/integrate.py"]}
{"id": "C23", "title": "Stability polynomial on linear fields", "statement": "In the field v(x)=A x+b (any dimension), one Euler step is x+h(Ax+b) and one RK4 step is the degree-4 Taylor polynomial of the exact flow; after n steps it is the n-th power.", "quantifier": "every A, b, h, n", "why_tests_cant": "continuum and induction", "anchors": ["src/pyftle/integrate.py:EulerIntegrator", "src/pyftle/integrate.py:RungeKutta4Integrator"]}
{"id": "C24", "title": "RK4 samples the field at t, t+h/2 and t+h", "statement": "As documented, the RK4 stages evaluate the velocity at times t, t+h/2, t+h/2, t+h.", "quantifier": "every time-dependent field", "why_tests_cant": "tests use steady fields", "anchors": ["src/pyftle/integrate.py:RungeKutta4Integrator"]}
{"id": "C25", "title": "Backward stepping equals forward stepping in the reversed flow", "statement": "integrate(-h) in field v gives the same positions as integrate(h) in field -v, for every integrator and any number of steps.", "quantifier": "every field, h, number of steps", "why_tests_cant": "symmetry over histories", "anchors": ["src/pyftle/integrate.py"]}
{"id": "C26", "title": "Integrator selection", "statement": "create_integrator accepts exactly the names euler, ab2, rk4 in any letter case and raises ValueError for every other string.", "quantifier": "every string", "why_tests_cant": "infinitely many strings", "anchors": ["src/pyftle/integrate.py:create_integrator"]}
{"id": "C27", "title": "The C++ kernels never read outside the grid array", "statement": "interp2d_vec_inplace and interp3d_vec_inplace only read v inside its bounds and write each out[i] once, for every grid size and every query point whose index coordinates fit a C int.", "quantifier": "every grid shape (2D/3D, including empty and 1-wide), every query", "why_tests_cant": "memory safety for all inputs", "anchors": ["src/pyftle/grid_interp/GridInterp.cpp:interp2d_vec_inplace", "src/pyftle/grid_interp/GridInterp.cpp:interp3d_vec_inplace"]}
{"id": "C28", "title": "Interpolation inside the grid is bilinear/trilinear", "statement": "For a query strictly below the last grid line in every axis the kernel returns the multilinear interpolant of the surrounding cell: exact on multilinear functions, equal to the node value at nodes and between the min and max of the corner values.", "quantifier": "every grid size, all data, all in-range queries", "why_tests_cant": "continuum of queries", "anchors": ["src/pyftle/grid_interp/GridInterp.cpp"]}
{"id": "C29", "title": "Outside the grid the velocity is zero", "statement": "For a query outside the grid (below the first line or beyond the last line in some axis) the kernel returns exactly 0.", "quantifier": "every query outside", "why_tests_cant": "continuum of queries", "anchors": ["src/pyftle/grid_interp/GridInterp.cpp"]}
{"id": "C30", "title": "Grid nodes are reproduced, including the last line", "statement": "Interpolating at a grid node returns the value stored at that node, for every node of the grid.", "quantifier": "every node of every grid", "why_tests_cant": "boundary nodes of every grid", "anchors": ["src/pyftle/grid_interp/GridInterp.cpp"]}
{"id": "C31", "title": "2D grid interpolator places samples at their coordinates", "statement": "After update(velocities, points) with samples listed x-fastest (meshgrid 'xy' order) on a uniform nx x ny grid, interpolating at node (i,j) below the last lines returns the velocity of sample i+nx*j, for both components.", "quantifier": "all nx, ny >= 2, all velocity data", "why_tests_cant": "index arithmetic for all shapes", "anchors": ["src/pyftle/interpolate.py:HighPerfInterpolator", "src/pyftle/grid_interp/grid_interp.py:Interp2D"]}
{"id": "C32", "title": "3D grid interpolator places samples at their coordinates", "statement": "After update(velocities, points) on a uniform nx x ny x nz grid, interpolating at a node returns the velocity sampled at that node.", "quantifier": "all nx, ny, nz and all velocity data, for the samples order used in 2D", "why_tests_cant": "index arithmetic; only non-square grids reveal a swapped axis", "anchors": ["src/pyftle/interpolate.py:HighPerfInterpolator._initialize_interpolator", "src/pyftle/grid_interp/grid_interp.py:Interp3D"]}
{"id": "C33", "title": "Velocity-only update of the 'grid' interpolator", "statement": "For interpolator 'grid', update(v2) after update(v1, points) behaves exactly like update(v2, points).", "quantifier": "every velocity pair, grid and query", "why_tests_cant": "histories of updates", "anchors": ["src/pyftle/interpolate.py:HighPerfInterpolator.update"]}
{"id": "C34", "title": "Velocity-only update of the structured SciPy interpolator", "statement": "For the structured cubic/linear/nearest interpolators, update(v2) after update(v1, points) behaves exactly like update(v2, points).", "quantifier": "every velocity pair, grid shape and query", "why_tests_cant": "histories of updates; square symmetric data hides a transposition", "anchors": ["src/pyftle/interpolate.py:GridInterpolator.update"]}
{"id": "C35", "title": "Velocity-only update of the unstructured interpolators", "statement": "For the unstructured cubic/linear/nearest interpolators, update(v2) after update(v1, points) behaves exactly like update(v2, points).", "quantifier": "every velocity pair, point set, query", "why_tests_cant": "histories of updates", "anchors": ["src/pyftle/interpolate.py:CubicInterpolator", "src/pyftle/interpolate.py:LinearInterpolator", "src/pyftle/interpolate.py:NearestNeighborInterpolator"]}
{"id": "C36", "title": "3D unstructured interpolation fills all three components", "statement": "Linear and nearest interpolators return, for 3D data and any number of query points, the interpolated u, v and w; no component depends on uninitialised memory.", "quantifier": "every number of query points, every memory content", "why_tests_cant": "uninitialised memory; tests only check finiteness", "anchors": ["src/pyftle/interpolate.py:LinearInterpolator.interpolate", "src/pyftle/interpolate.py:NearestNeighborInterpolator.interpolate"]}
{"id": "C37", "title": "2D unstructured interpolation returns both components for any number of points", "statement": "Linear and nearest interpolators in 2D return the interpolated (u,v) for every number of query points.", "quantifier": "every number of query points", "why_tests_cant": "a single query count triggers the failure", "anchors": ["src/pyftle/interpolate.py:LinearInterpolator.interpolate", "src/pyftle/interpolate.py:NearestNeighborInterpolator.interpolate"]}
{"id": "C38", "title": "Interpolating is read-only", "statement": "interpolate never changes what later interpolate calls return: after any sequence of interpolate calls with any numbers of points, a query gives the same answer as on the freshly updated interpolator, and each point's result is independent of the other points in the call.", "quantifier": "every sequence of calls and every batch size, all interpolator kinds", "why_tests_cant": "histories with reused buffers", "anchors": ["src/pyftle/interpolate.py", "src/pyftle/grid_interp/grid_interp.py"]}
{"id": "C39", "title": "Using an interpolator before giving it points is an error", "statement": "For every kind of data-driven interpolator, update(velocities) without points ever having been given raises ValueError, and interpolating without a successful update raises an error.", "quantifier": "every kind and every data", "why_tests_cant": "all kinds and histories", "anchors": ["src/pyftle/interpolate.py:Interpolator.update", "src/pyftle/interpolate.py:HighPerfInterpolator.update"]}
{"id": "C40", "title": "Interpolator selection", "statement": "create_interpolator maps (name, grid_shape, velocity_fn) to the documented class, case-insensitively, and raises for every other combination.", "quantifier": "every string, optional shape and function", "why_tests_cant": "infinitely many strings", "anchors": ["src/pyftle/interpolate.py:create_interpolator"]}
{"id": "C41", "title": "Windows of snapshots", "statement": "With n velocity files and p=int(T/|dt|)+1, the file workflow makes exactly n-p+1 tasks; task i uses velocity files i..i+p-1 in order, coordinate file (i+j) mod m for its j-th step and particle file i mod k (m, k the list lengths).", "quantifier": "all list lengths and contents, all positive T and dt>0", "why_tests_cant": "all combinations of lengths", "anchors": ["src/pyftle/__main__.py:MultipleFTLEProcessManager._create_batches"]}
{"id": "C42", "title": "Backward run pairs each snapshot with the same coordinate and particle file as the forward run", "statement": "With negative timestep the file lists are reversed, and each velocity snapshot keeps the coordinate file it has in the forward run, and windows are the mirrored ones.", "quantifier": "all list lengths", "why_tests_cant": "only lengths that do not divide each other expose a mismatch", "anchors": ["src/pyftle/__main__.py:MultipleFTLEProcessManager._handle_time_direction", "src/pyftle/__main__.py:MultipleFTLEProcessManager._create_batches"]}
{"id": "C43", "title": "Too few snapshots or a bad period never produce output silently", "statement": "If n<p, or the window length p is not positive, or dt=0, the run raises before any task starts and writes no file.", "quantifier": "all n, T, dt", "why_tests_cant": "all combinations including negative periods", "anchors": ["src/pyftle/__main__.py:MultipleFTLEProcessManager._create_batches", "src/pyftle/parallel.py:ParallelExecutor.run"]}
{"id": "C44", "title": "Window length matches the requested period", "statement": "When flow_map_period is an exact decimal multiple k of |timestep| the window has k+1 snapshots.", "quantifier": "every decimal timestep and multiple k in binary64", "why_tests_cant": "binary64 quotients fall below the integer for some decimals only", "anchors": ["src/pyftle/__main__.py:MultipleFTLEProcessManager._create_batches", "src/pyftle/api.py:AnalyticalSolver.__init__"]}
{"id": "C45", "title": "Every step sees its own snapshot and coordinates", "statement": "In a file-based task, before the integration of step j the interpolator holds the velocities of the j-th snapshot and the coordinates of the j-th coordinate file, although coordinates are only re-read when they may change.", "quantifier": "every list of files, every interpolator kind that accepts velocity-only updates", "why_tests_cant": "caching over histories", "anchors": ["src/pyftle/data_source.py:FileBatchSource"]}
{"id": "C46", "title": "Analytical tasks evaluate the velocity at the task's times", "statement": "For AnalyticalSolver with num_ftles=m, the i-th field is computed with velocity_fn evaluated at times (i+j)*timestep in step j.", "quantifier": "every velocity function, m, period", "why_tests_cant": "steady test fields hide it", "anchors": ["src/pyftle/data_source.py:AnalyticalBatchSource.update_interpolator", "src/pyftle/interpolate.py:AnalyticalInterpolator", "src/pyftle/api.py:AnalyticalSolver._create_batches"]}
{"id": "C47", "title": "Analytical time windows", "statement": "AnalyticalSolver creates num_ftles tasks; task i covers exactly num_snapshots = int(T/|dt|)+1 times, the j-th being (i+j)*timestep.", "quantifier": "every num_ftles, T, timestep", "why_tests_cant": "all sizes", "anchors": ["src/pyftle/api.py:AnalyticalSolver._create_batches"]}
{"id": "C48", "title": "Distinct file-based fields go to distinct output files", "statement": "Tasks starting from different velocity files write to different output files.", "quantifier": "all lists of distinct paths", "why_tests_cant": "needs colliding basenames in different directories", "anchors": ["src/pyftle/data_source.py:FileBatchSource.__init__", "src/pyftle/ftle_solver.py:FTLESolver.run"]}
{"id": "C49", "title": "Distinct analytical fields go to distinct output files", "statement": "Tasks with different start times write to different output files.", "quantifier": "every timestep and num_ftles", "why_tests_cant": "needs a small timestep", "anchors": ["src/pyftle/data_source.py:AnalyticalBatchSource.id", "src/pyftle/ftle_solver.py:FTLESolver.run"]}
{"id": "C50", "title": "One integration per snapshot, in order", "statement": "A successful FTLESolver.run performs exactly num_steps integration steps of size timestep, step j with the field of snapshot j, starting from the source's particles, and computes the FTLE from the resulting positions.", "quantifier": "every source, integrator and number of steps", "why_tests_cant": "induction over steps", "anchors": ["src/pyftle/ftle_solver.py:FTLESolver.run"]}
{"id": "C51", "title": "FTLE is normalised by the elapsed advection time", "statement": "The T used in (1/T) ln||F|| is the time over which the particles were actually advected.", "quantifier": "every source with at least two snapshots", "why_tests_cant": "requires relating loop count to the divisor", "anchors": ["src/pyftle/ftle_solver.py:FTLESolver.run", "src/pyftle/ftle_solver.py:FTLESolver._compute_ftle"]}
{"id": "C52", "title": "Single-snapshot windows are rejected", "statement": "If the window has only one snapshot (period shorter than the timestep), run raises ZeroDivisionError and writes nothing.", "quantifier": "every source with num_steps=1 (2D and 3D)", "why_tests_cant": "all sources", "anchors": ["src/pyftle/ftle_solver.py:FTLESolver._compute_ftle"]}
{"id": "C53", "title": "Progress protocol", "statement": "A successful run with a queue emits exactly (id,0),(id,1),...,(id,num_steps-1),(id,'done'); a run that fails during integration emits exactly the prefix of completed steps and no 'done'; without a queue nothing is emitted.", "quantifier": "every source and every failure point", "why_tests_cant": "all failure points", "anchors": ["src/pyftle/ftle_solver.py:FTLESolver.run"]}
{"id": "C54", "title": "'done' means the result exists", "statement": "When (id,'done') has been published, the FTLE field of that task has been computed and written.", "quantifier": "every crash/failure point of a run", "why_tests_cant": "crash points", "anchors": ["src/pyftle/ftle_solver.py:FTLESolver.run"]}
{"id": "C55", "title": "Output exists exactly for completed tasks", "statement": "A run with a writer writes exactly one file, ftle_<id>, holding the field and the seeds' centroids, if and only if it completes, and returns None; without a writer it writes nothing and returns the field; a failed run writes nothing.", "quantifier": "every source, writer and failure point", "why_tests_cant": "failure points", "anchors": ["src/pyftle/ftle_solver.py:FTLESolver.run"]}
{"id": "C56", "title": "Running a solver again gives the same field", "statement": "Calling run twice on the same solver returns the same field both times.", "quantifier": "every source kind and integrator", "why_tests_cant": "state carried across runs", "anchors": ["src/pyftle/ftle_solver.py:FTLESolver.run", "src/pyftle/data_source.py:AnalyticalBatchSource.get_particles", "src/pyftle/integrate.py:AdamsBashforth2Integrator"]}
{"id": "C57", "title": "FTLE at a seed depends only on that seed's own group", "statement": "With a pointwise field, the FTLE value of group i is the value obtained by running the solver on group i alone.", "quantifier": "every set of groups, every integrator and number of steps", "why_tests_cant": "all subsets and sizes", "anchors": ["src/pyftle/ftle_solver.py:FTLESolver.run", "src/pyftle/cauchy_green.py", "src/pyftle/ftle.py"]}
{"id": "C58", "title": "Uniform flow has zero FTLE", "statement": "For a constant velocity field and any axis-aligned seeds the whole pipeline returns 0 for every seed, for every integrator, step count and direction of time.", "quantifier": "every constant field, seeds, n>=2, h<>0", "why_tests_cant": "end-to-end over all sizes", "anchors": ["src/pyftle/ftle_solver.py:FTLESolver.run"]}
{"id": "C59", "title": "FTLE of a linear flow", "statement": "For v(x)=Ax+b and axis-aligned seeds, the pipeline returns ln||P||/((n-1)|h|) for every seed, where P is the n-step propagator of the chosen integrator (Euler: (I+hA)^n).", "quantifier": "every A, b, h, n>=2, seeds", "why_tests_cant": "end-to-end over all sizes", "anchors": ["src/pyftle/ftle_solver.py:FTLESolver.run"]}
{"id": "C60", "title": "Results are in task order for every schedule", "statement": "If no task fails, ParallelExecutor.run returns the list of the tasks' results in task order, whatever the order in which workers start, finish and are collected.", "quantifier": "every number of tasks and workers, every schedule", "why_tests_cant": "all interleavings", "anchors": ["src/pyftle/parallel.py:ParallelExecutor.run"]}
{"id": "C61", "title": "A failing task makes run fail", "statement": "If some task fails, run never returns normally, in every schedule; it raises the exception of a failing task, and every schedule terminates.", "quantifier": "every set of failing tasks and every schedule", "why_tests_cant": "all interleavings", "anchors": ["src/pyftle/parallel.py:ParallelExecutor.run"]}
{"id": "C62", "title": "Task failure is reported as RuntimeError", "statement": "As documented, run raises RuntimeError when one or more tasks fail.", "quantifier": "every exception type raised by a task", "why_tests_cant": "needs a task raising another exception type", "anchors": ["src/pyftle/parallel.py:ParallelExecutor.run", "src/pyftle/__main__.py:main"]}
{"id": "C63", "title": "After a failure no further task is started", "statement": "Once a failure has been collected, tasks not yet handed to a worker never run; tasks already handed over run to completion before run exits.", "quantifier": "every schedule", "why_tests_cant": "all interleavings", "anchors": ["src/pyftle/parallel.py:ParallelExecutor.run"]}
{"id": "C64", "title": "The progress monitor never crashes in a fault-free run, and shows the progress made", "statement": "For every interleaving of the workers' progress messages in which each worker completes its tasks one after another, the monitor raises no error, never uses more than n_processes bars, assigns distinct display rows to concurrent bars, and finishes with exactly total_tasks completions. At every moment it shows exactly one bar for each task that has reported a step and not its end, and the bar shows the step reported last.", "quantifier": "every number of workers, tasks, steps and every interleaving (task ids may repeat)", "why_tests_cant": "all interleavings", "anchors": ["src/pyftle/parallel.py:ParallelExecutor._monitor_progress"]}
{"id": "C65", "title": "The progress monitor survives task failures", "statement": "The monitor raises no error for any message sequence producible by the workers, including runs in which a task fails.", "quantifier": "every interleaving with failures", "why_tests_cant": "race between failure and next task", "anchors": ["src/pyftle/parallel.py:ParallelExecutor._monitor_progress"]}
{"id": "C66", "title": "The monitor process is always stopped", "statement": "Whenever ParallelExecutor.run exits, normally or with any error, the monitor process it started is no longer waiting forever.", "quantifier": "every task list, worker count and failure", "why_tests_cant": "error paths before the pool exists", "anchors": ["src/pyftle/parallel.py:ParallelExecutor.run"]}
{"id": "C67", "title": "AnalyticalSolver returns an array of shape (num_ftles, n_points)", "statement": "run returns a stack with one row per requested field in task order, including num_ftles = 1.", "quantifier": "every num_ftles >= 1", "why_tests_cant": "shape differs only at one value", "anchors": ["src/pyftle/api.py:AnalyticalSolver.run"]}
{"id": "C68", "title": "Velocity and coordinate readers", "statement": "read_velocity/read_coordinate return one row per component (x,y[,z]) holding the file's values flattened in one fixed row-major order common to all components; they raise ValueError iff x or y is missing or the components differ in size.", "quantifier": "every file content", "why_tests_cant": "all shapes", "anchors": ["src/pyftle/file_readers.py:read_velocity", "src/pyftle/file_readers.py:read_coordinate"]}
{"id": "C69", "title": "Arrays are flattened in column-major order", "statement": "As the module documentation says, file arrays are flattened in column-major order.", "quantifier": "every 2-D array", "why_tests_cant": "1-D test arrays are insensitive to the order", "anchors": ["src/pyftle/file_readers.py"]}
{"id": "C70", "title": "Seed file round trip", "statement": "Reading a seed file with N rows per neighbour key yields particles whose i-th group consists of the i-th rows of left, right, top, bottom (front, back).", "quantifier": "every N and coordinates, 2D and 3D", "why_tests_cant": "index arithmetic for all N", "anchors": ["src/pyftle/file_readers.py:read_seed_particles_coordinates"]}
{"id": "C71", "title": "Inconsistent seed files are rejected", "statement": "A 3D seed file lacking 'front' or 'back', or neighbour arrays of different lengths, raises an error.", "quantifier": "every file content", "why_tests_cant": "only particular lengths slip through", "anchors": ["src/pyftle/file_readers.py:read_seed_particles_coordinates", "src/pyftle/particles.py:NeighboringParticles.__post_init__"]}
{"id": "C72", "title": "MAT output keeps each value with its seed", "statement": "In the .mat output (structured 2D/3D or unstructured) the ftle, x, y(, z) arrays have equal shapes and hold at equal indices the value and centroid of the same seed, each seed exactly once.", "quantifier": "every grid shape and data", "why_tests_cant": "index arithmetic for all shapes", "anchors": ["src/pyftle/file_writers.py:MatWriter.write"]}
{"id": "C73", "title": "VTK output keeps each value with its seed (2D and unstructured)", "statement": "In .vts output for a 2D grid and in .vtp output, the FTLE value attached to point q is the one of the seed whose centroid is point q, each seed exactly once.", "quantifier": "every grid shape and data", "why_tests_cant": "index arithmetic for all shapes", "anchors": ["src/pyftle/file_writers.py:VTKWriter.write"]}
{"id": "C74", "title": "VTK output keeps each value with its seed (3D grid)", "statement": "In .vts output for a 3D grid, the FTLE value attached to point q is the one of the seed whose centroid is point q.", "quantifier": "every grid shape and data", "why_tests_cant": "index arithmetic; cubic symmetric data hides it", "anchors": ["src/pyftle/file_writers.py:VTKWriter.write"]}
{"id": "C75", "title": "Writers reject sizes that do not match the grid shape", "statement": "A structured writer raises ValueError and writes nothing when the number of seeds differs from the product of grid_shape, or grid_shape has not 2 or 3 entries.", "quantifier": "every shape and data size", "why_tests_cant": "all sizes", "anchors": ["src/pyftle/file_writers.py:MatWriter.write", "src/pyftle/file_writers.py:VTKWriter.write"]}
{"id": "C76", "title": "A writer may be reused for fields of another dimension", "statement": "Writing a 3D field with a writer previously used for a 2D field stores the z coordinates.", "quantifier": "every sequence of writes", "why_tests_cant": "state carried across writes", "anchors": ["src/pyftle/file_writers.py:FTLEWriter"]}
{"id": "C77", "title": "File lists round-trip", "statement": "get_files_list(write_list_to_txt(l)) returns l.", "quantifier": "every list of paths", "why_tests_cant": "needs paths with separators, quotes, blanks or NA-like names", "anchors": ["src/pyftle/file_utils.py:write_list_to_txt", "src/pyftle/file_utils.py:get_files_list"]}
{"id": "C78", "title": "File search", "statement": "find_files_with_pattern returns the sorted list of exactly the files under the root whose name contains the pattern.", "quantifier": "every directory tree and pattern without wildcards", "why_tests_cant": "all trees; directories whose name matches", "anchors": ["src/pyftle/file_utils.py:find_files_with_pattern"]}
{"id": "C79", "title": "Input-list script warns about every missing category", "statement": "create_list_of_input_files warns about each of the three categories for which no file was found.", "quantifier": "every set of files", "why_tests_cant": "all combinations", "anchors": ["create_list_of_input_files.py:main"]}
{"id": "C80", "title": "Grid-shape parsing", "statement": "parse_tuple accepts exactly comma-separated lists of two or three positive integers and returns a tuple of two or three positive integers, dropping a trailing 1.", "quantifier": "every string", "why_tests_cant": "infinitely many strings", "anchors": ["src/pyftle/hyperparameters.py:parse_tuple"]}
{"id": "C81", "title": "Omitted options take their documented defaults", "statement": "Omitting --integrator, --interpolator or --output_format selects euler, cubic, mat as the help text says.", "quantifier": "every command line", "why_tests_cant": "no test builds the manager", "anchors": ["src/pyftle/hyperparameters.py", "src/pyftle/__main__.py:MultipleFTLEProcessManager.__init__"]}
{"id": "C82", "title": "Durations are reported correctly", "statement": "The reported days/hours/minutes/seconds recompose to the whole seconds elapsed, with hours<24, minutes<60, seconds<60, for every pair of instants.", "quantifier": "every pair of datetimes", "why_tests_cant": "all integers", "anchors": ["src/pyftle/decorators.py:dhms_from_seconds", "src/pyftle/decorators.py:date_diff_in_seconds"]}
{"id": "C83", "title": "The shipped file-based example configuration works", "statement": "A file-based run with interpolator 'grid' and a single (static) coordinate file completes.", "quantifier": "every dataset with windows of at least two snapshots", "why_tests_cant": "depends on the second update of a cached interpolator", "anchors": ["src/pyftle/interpolate.py:HighPerfInterpolator.update", "src/pyftle/data_source.py:FileBatchSource.get_data_for_step", "examples/02_File-based_IO.ipynb"]}
{"id": "C84", "title": "FTLE formula with |T|", "statement": "As documented, compute_ftle_2x2/3x3 return (1/|T|) ln sqrt(lambda_max) whatever the sign of map_period.", "quantifier": "every Jacobian and every non-zero map_period of either sign", "why_tests_cant": "The sign branch is only visible for negative periods, and equality must hold for every Jacobian.", "anchors": ["src/pyftle/ftle.py:compute_ftle_2x2", "src/pyftle/ftle.py:compute_ftle_3x3"]}
{"id": "C85", "title": "Jacobian on rotated stencils", "statement": "compute_flow_map_jacobian_2x2 returns the deformation gradient for every non-degenerate stencil, also when right-left and top-bottom are not aligned with the axes; in particular the identity for particles that have not moved.", "quantifier": "every non-degenerate stencil", "why_tests_cant": "Tests use axis-aligned stencils only.", "anchors": ["src/pyftle/cauchy_green.py:compute_flow_map_jacobian_2x2"]}
{"id": "C86", "title": "Structured SciPy interpolators in 2D: placement", "statement": "With a 2D grid shape, names 'linear', 'nearest' and 'cubic' place each velocity sample at the point given for it, as 'grid' does; the two kinds of interpolator agree at the nodes.", "quantifier": "every grid, every sample array, every structured method", "why_tests_cant": "A placement error is invisible on square symmetric test fields and depends on all index pairs.", "anchors": ["src/pyftle/interpolate.py:GridInterpolator._initialize_interpolator", "src/pyftle/interpolate.py:HighPerfInterpolator"]}
{"id": "C87", "title": "Unstructured interpolators forward samples and queries unpermuted", "statement": "The unstructured interpolators give SciPy the sample points, the samples and the query points as the caller gave them and return SciPy's x and y answers in the first and second column (third column: see C36); 'cubic' rejects 3D points with ValueError.", "quantifier": "every sample set, every query set, every behaviour of SciPy", "why_tests_cant": "Tests fix one data set and one SciPy answer; a swap of components is invisible on symmetric data.", "anchors": ["src/pyftle/interpolate.py:CubicInterpolator", "src/pyftle/interpolate.py:LinearInterpolator", "src/pyftle/interpolate.py:NearestNeighborInterpolator"]}
{"id": "C88", "title": "Structured SciPy interpolators in 3D: placement", "statement": "With a 3D grid shape and samples listed x slowest, z fastest, each structured SciPy interpolator returns at node (i,j,k) all three components of the sample (i*ny+j)*nz+k.", "quantifier": "every 3D grid with at least two nodes per axis, every sample array, every structured method", "why_tests_cant": "Depends on all index triples; tests use one grid.", "anchors": ["src/pyftle/interpolate.py:GridInterpolator._initialize_interpolator"]}
{"id": "C89", "title": "MAT and VTK files describe the same grid", "statement": "For the same seeds and grid shape, the node (i,j[,k]) of the MAT arrays and of the VTK structured grid carry the same seed.", "quantifier": "every grid shape and data", "why_tests_cant": "index arithmetic for all shapes; symmetric grids hide it", "anchors": ["src/pyftle/file_writers.py:MatWriter.write", "src/pyftle/file_writers.py:VTKWriter.write"]}
{"id": "C90", "title": "VTK files keep the height of seeds in space", "statement": "Seeds in space on a two-entry grid shape appear in the .vts file at their own positions.", "quantifier": "every grid (nx, ny) and all seeds in space", "why_tests_cant": "needs seeds off the plane z=0", "anchors": ["src/pyftle/file_writers.py:VTKWriter.write"]}
{"id": "C91", "title": "Only the formats mat and vtk are accepted", "statement": "create_writer returns a writer of the asked format, directory and grid shape for exactly 'mat' and 'vtk', and raises ValueError for every other string.", "quantifier": "every string", "why_tests_cant": "infinitely many strings", "anchors": ["src/pyftle/file_writers.py:create_writer"]}
{"id": "C92", "title": "A write changes exactly one file or none", "statement": "A call of write either raises and changes no file, or succeeds and changes exactly the file named after its filename argument.", "quantifier": "every writer, history of writes and data", "why_tests_cant": "histories and all paths", "anchors": ["src/pyftle/file_writers.py:MatWriter.write", "src/pyftle/file_writers.py:VTKWriter.write"]}
{"id": "C93", "title": "Output files do not depend on scheduling or the number of processes", "statement": "Two runs of the same task list that both return leave the same contents in every file, whatever the schedules and the numbers of processes.", "quantifier": "every task list, writer, pair of process counts and pair of schedules", "why_tests_cant": "all interleavings of all runs", "anchors": ["src/pyftle/parallel.py:ParallelExecutor.run", "src/pyftle/__main__.py:MultipleFTLEProcessManager.run", "src/pyftle/api.py:AnalyticalSolver.run"]}
{"id": "C94", "title": "No wrong file at any moment, with any failures", "statement": "At every moment of a run, whichever tasks have failed and workers were killed so far, each file is either exactly as before the run or the complete and correct output of a task that was completed.", "quantifier": "every task list, schedule, failure and kill, and every reachable state", "why_tests_cant": "every interleaving and crash point", "anchors": ["src/pyftle/parallel.py:ParallelExecutor.run", "src/pyftle/__main__.py:MultipleFTLEProcessManager._worker", "src/pyftle/file_writers.py:MatWriter.write", "src/pyftle/file_writers.py:VTKWriter.write"]}
{"id": "C95", "title": "A failed run ends with an error", "statement": "If some field could not be computed or saved, the command line program raises (as documented: RuntimeError) and does not end like a successful run.", "quantifier": "every command line, set of files, failure and schedule", "why_tests_cant": "crash of a worker at any moment", "anchors": ["src/pyftle/__main__.py:main", "src/pyftle/decorators.py:time_it"]}
{"id": "C96", "title": "A run that reports no failure has written every field correctly", "statement": "If the command line program ends without reporting a failure and no two windows have the same output name, then for every window the output file holds the FTLE field of its seeds advected through its snapshots, and no other file is changed; likewise for AnalyticalSolver with a writer.", "quantifier": "every command line, input files, previous output files, schedule and number of processes", "why_tests_cant": "end to end over all inputs and interleavings", "anchors": ["src/pyftle/__main__.py:main", "src/pyftle/__main__.py:MultipleFTLEProcessManager", "src/pyftle/api.py:AnalyticalSolver"]}
{"id": "C97", "title": "Completed windows survive a crash", "statement": "If no two windows have the same output name, then from the moment a window's task is completed its output file is whole and correct, at every later moment, whichever other tasks fail and workers are killed; and in a run in which no worker is killed no file is left unfinished, whichever tasks fail.", "quantifier": "every task list, schedule, failure and kill, and every reachable state", "why_tests_cant": "every interleaving and crash point", "anchors": ["src/pyftle/parallel.py:ParallelExecutor.run", "src/pyftle/__main__.py:MultipleFTLEProcessManager._worker", "src/pyftle/file_writers.py:MatWriter.write"]}
{"id": "C98", "title": "3D FTLE tolerates an inexact eigenvalue solver", "statement": "If the largest number returned by the eigenvalue routine for F F^T has relative error at most eps < 1 with respect to the squared spectral norm of F, each 3D FTLE value differs from ln||F||/T by at most -ln(1-eps)/(2|T|). If all three returned numbers are negative the value is NaN, never a number; if the routine fails for one particle, no field is returned.", "quantifier": "every list of 3x3 deformation gradients, period T <> 0, eps in [0,1), eigenvalue routine", "why_tests_cant": "holds for all matrices and all error patterns of LAPACK", "anchors": ["src/pyftle/ftle.py:max_eigenvalue_3x3", "src/pyftle/ftle.py:compute_ftle_3x3"]}
{"id": "C99", "title": "2D FTLE is accurate in binary64", "statement": "In binary64 arithmetic, for a Jacobian whose entries are of moderate size and whose two singular values differ in the seventh digit or earlier, and a period of moderate size, compute_ftle_2x2 returns a finite value within 2^-23 / |T| of ln(spectral norm) / T, given a library logarithm accurate to 2^-40.", "quantifier": "every list of binary64 Jacobians with entries up to 2^200 and one of at least 2^-200 in absolute value, every period between 2^-200 and 2^200 in absolute value, every accurate logarithm", "why_tests_cant": "the bound is over all bit patterns of the four entries and of the period", "anchors": ["src/pyftle/ftle.py:compute_cauchy_green_2x2", "src/pyftle/ftle.py:max_eigenvalue_2x2", "src/pyftle/ftle.py:compute_ftle_2x2"]}
{"id": "C100", "title": "The Euler integrator is first-order accurate", "statement": "In exact arithmetic, advancing particles with the 'euler' integrator through n snapshots of a flow that is Lipschitz in space, each step given the field at its start, puts every particle within |h| * T * M * exp(L T) of its true trajectory at the final time, T = n|h|, where M bounds the acceleration along the trajectory. The time step may be negative.", "quantifier": "all fields of any dimension with Lipschitz constant L, all trajectories, numbers and sizes of steps, particle sets, memory contents and interpolators that return the field", "why_tests_cant": "convergence is a statement about all step sizes and all flows; a test sees a few step sizes of one flow", "anchors": ["src/pyftle/integrate.py: EulerIntegrator, euler_step_inplace"]}
{"id": "C101", "title": "The AB2 integrator is second-order accurate, in unsteady flows too", "statement": "In exact arithmetic, advancing particles with the 'ab2' integrator, whose first step is an Euler step, through n snapshots of a flow that is Lipschitz in space puts every particle within h^2 * (M + 3/2 K T) * exp(2 L T) of its true trajectory at the final time, where M bounds the acceleration and K its rate of change.", "quantifier": "all fields of any dimension, steady or not, all trajectories, numbers, sizes and signs of steps, particle sets and memory contents", "why_tests_cant": "convergence is a statement about all step sizes and all flows; the start-up step must not spoil the order", "anchors": ["src/pyftle/integrate.py: AdamsBashforth2Integrator, adams_bashforth_2_step_inplace"]}
{"id": "C102", "title": "The RK4 integrator is fourth-order accurate", "statement": "As its documentation says, the 'rk4' integrator achieves fourth-order accuracy: the error at a fixed final time is at most a constant times h^4.", "quantifier": "all smooth fields, steady or not, all trajectories, numbers and sizes of steps", "why_tests_cant": "convergence is a statement about all step sizes; existing tests use steady or single-step flows, where the defect is invisible", "anchors": ["src/pyftle/integrate.py: RungeKutta4Integrator, runge_kutta_4_step_inplace", "src/pyftle/ftle_solver.py: FTLESolver.run"]}
{"id": "C103", "title": "The FTLE field converges to that of the flow map when the time step is refined", "statement": "In exact arithmetic, running the solver on n snapshots of a flow over a fixed time T (time step T/n, either sign, any integrator) gives for every seed a number within C/n of ln ||F|| / |T|, where F is the central-difference gradient of the true flow map at the seed's neighbours; C does not depend on n. In particular dividing by (n-1)|h| instead of n|h| does not change the limit.", "quantifier": "all Lipschitz flows in 2D and 3D, steady or not, whose trajectories through the seeds' neighbours have bounded acceleration, all axis-aligned seeds with non-zero gradient, all n from some N on, all integrators, interpolators that return the field, memory contents", "why_tests_cant": "a limit statement over all step sizes; no finite set of runs shows it", "anchors": ["src/pyftle/ftle_solver.py: FTLESolver.run", "src/pyftle/integrate.py: EulerIntegrator, AdamsBashforth2Integrator, RungeKutta4Integrator", "src/pyftle/cauchy_green.py: compute_flow_map_jacobian_2x2, compute_flow_map_jacobian_3x3", "src/pyftle/ftle.py: compute_ftle_2x2, compute_ftle_3x3"]}
{"id": "C104", "title": "Snapshots are listed in the order of their numbers", "statement": "If the velocity files are named by the number of their snapshot (before<number>after), the list written by create_list_of_input_files.py, and the result of find_files_with_pattern, has them in the order of these numbers.", "quantifier": "every directory tree, every naming scheme before<number>after", "why_tests_cant": "holds for the names of the example, fails as soon as numbers have different numbers of digits", "anchors": ["create_list_of_input_files.py:main", "src/pyftle/file_utils.py:find_files_with_pattern"]}
{"id": "C105", "title": "The FTLE field converges to that of the flow", "statement": "For points at which the flow map of a Lipschitz velocity field has partial derivatives, not all zero, the FTLE computed from crosses of particles around the points and n snapshots over the period is as close as desired to ln|grad flow map|/|T|, once the crosses are small enough and then n is large enough.", "quantifier": "every Lipschitz (unsteady) field, all finite lists of points, all three methods, both signs of T, all small enough crosses, 2D and 3D", "why_tests_cant": "limit statement over all flows and refinements", "anchors": ["src/pyftle/ftle_solver.py:FTLESolver.run", "src/pyftle/integrate.py", "src/pyftle/cauchy_green.py", "src/pyftle/ftle.py"]}
{"id": "C106", "title": "Grid interpolation is accurate in binary64", "statement": "For finite data on a uniform grid, the grid interpolator run in IEEE double precision returns, at every query point strictly inside the grid, the multilinear interpolant of the samples up to an error of a few units in the last place of the largest sample, scaled with the number of grid lines.", "quantifier": "All grid sizes below 2^31, all finite sample values up to 2^898, all extents between 2^-900 and 2^900, all finite query points, in two and three dimensions.", "why_tests_cant": "Rounding errors depend on the values; a test compares a few points with a tolerance and misses the points whose index rounds up to the last grid line.", "anchors": ["src/pyftle/interpolate.py: HighPerfInterpolator", "src/pyftle/grid_interp/grid_interp.py: Interp2D, Interp3D", "src/pyftle/grid_interp/GridInterp.cpp: interp2d_vec_inplace, interp3d_vec_inplace"]}
{"id": "C107", "title": "The flow-map Jacobian and the 2D FTLE computed from stored positions lose only a few units in the last place to cancellation", "statement": "compute_flow_map_jacobian_2x2 / _3x3 on binary64 positions return, entry by entry, the exact central difference of the stored positions up to a relative error of 2^-50 (plus an underflow of at most 2^-1074). Passing that Jacobian to compute_ftle_2x2 gives a finite value within 2^-22/|T| of ln(s)/T, with s the spectral norm of the exact central differences, unless the two singular values nearly coincide.", "quantifier": "all lists of seeds with finite binary64 neighbours, all later finite positions, all periods, all accurate logarithms", "why_tests_cant": "the error of subtracting nearby numbers depends on every bit of both; tests compare a few flows with a loose tolerance and cannot tell rounding from cancellation", "anchors": ["src/pyftle/cauchy_green.py: compute_flow_map_jacobian_2x2, compute_flow_map_jacobian_3x3", "src/pyftle/particles.py: NeighboringParticles.delta_right_left, delta_top_bottom, delta_front_back", "src/pyftle/ftle.py: compute_ftle_2x2"]}
{"id": "C108", "title": "Rounding errors of the time integration stay bounded in binary64", "statement": "Advecting particles with the Euler, AB2 or RK4 integrator in double precision, with velocities accurate to delta, gives finite positions whose distance to the positions of the same run in exact arithmetic is at most n(2|h|delta + 2^-50 B) exp(2 n|h|L) after n steps of size h, where B bounds the region, and L the velocity gradient; hence the distance to the true trajectory is that plus the truncation error of the method.", "quantifier": "all three integrators, all dimensions, all step counts below 2^47, all fields (a different one each step), all interpolators that sample them, all particles, all step sizes and scales between 2^-100 and 2^800", "why_tests_cant": "Tests compare a few trajectories with a tolerance chosen by hand; they cannot show that rounding errors do not accumulate beyond a bound for every field, step count and scale.", "anchors": ["src/pyftle/integrate.py: EulerIntegrator.integrate, AdamsBashforth2Integrator.integrate, RungeKutta4Integrator.integrate"]}
{"id": "C109", "title": "A whole 2D run in floating point returns the FTLE of the flow up to a known error", "statement": "Running the solver in binary64 on a 2D flow returns one finite value per seed. It differs from the logarithm of the norm of the central-difference gradient of the flow map, divided by the integration time used by the solver, by at most (2^-21 + 12 E / (s a)) over that time, where E is the rounding error plus the truncation error of the integrator, a the distance between opposite neighbours and s the norm.", "quantifier": "All velocity fields with bounded gradient, all accurate interpolators and logarithms, all three integrators, all step counts up to 2^47, all seeds whose gradient is resolved by the neighbours.", "why_tests_cant": "Errors of the stages accumulate along every trajectory and are amplified by the difference quotient; tests compare single runs with loose tolerances.", "anchors": ["src/pyftle/ftle_solver.py: FTLESolver.run, _compute_ftle", "src/pyftle/integrate.py", "src/pyftle/cauchy_green.py: compute_flow_map_jacobian_2x2", "src/pyftle/ftle.py: compute_ftle_2x2"]}
{"id": "C110", "title": "The 3D FTLE in floating point is accurate, whatever the other singular values are", "statement": "In binary64 the 3D FTLE routine returns one finite value per matrix, within 2^-36 over the time of the logarithm of the spectral norm divided by the time, provided the library's logarithm and eigenvalue routine are accurate on the symmetric matrices they are given. A whole 3D solver run returns the FTLE of the central-difference gradient of the flow map up to (2^-34 + 12 E / (s a)) over the integration time, E being the rounding plus truncation error of the integrator, a the distance between opposite neighbours and s the norm.", "quantifier": "All batches of 3x3 matrices with entries up to 2^200 that are not all below 2^-200; all velocity fields with bounded gradient, interpolators, logarithms and eigenvalue routines that are accurate in the stated sense, all three integrators, all step counts up to 2^47, all seeds whose gradient is resolved by the neighbours.", "why_tests_cant": "The 3D path forms the tensor in a different way from the 2D path and calls a library eigenvalue routine; rounding of each stage must be bounded for every matrix, including those with repeated singular values.", "anchors": ["src/pyftle/ftle.py: compute_cauchy_green_3x3, max_eigenvalue_3x3, compute_ftle_3x3", "src/pyftle/cauchy_green.py: compute_flow_map_jacobian_3x3", "src/pyftle/ftle_solver.py: FTLESolver.run, _compute_ftle", "src/pyftle/integrate.py"]}
{"id": "C111", "title": "A file task on gridded data returns the FTLE of the flow whose velocity was sampled", "statement": "Given velocity files that sample a velocity field at the nodes of a regular grid, coordinate files that hold the grid and a particle file with the neighbours of the seeds, a task with the compiled grid interpolator returns - or writes, with the seed centres, under the name of its first velocity file - for every seed the FTLE of the flow of that velocity field. The error is at most (2^-21 + 12 E / (s a)) over the integration time; E adds the error of the samples, of interpolation (gradient times spacing), of rounding, and of the integrator.", "quantifier": "All 2D velocity fields with bounded gradient, all regular grids of at least 2x2 nodes, all samples accurate to eps, all seeds that stay on the grid, all three integrators, all step counts up to 2^47, forward and backward in time, with or without a writer or a progress queue.", "why_tests_cant": "The claim joins reading, reordering of the samples, interpolation, integration, differentiation and the FTLE formula in floating point, and compares the result with a flow that no test can compute exactly.", "anchors": ["src/pyftle/data_source.py: FileBatchSource", "src/pyftle/file_readers.py: read_velocity, read_coordinate, read_seed_particles_coordinates", "src/pyftle/interpolate.py: HighPerfInterpolator", "src/pyftle/grid_interp/GridInterp.cpp: interp2d_vec_inplace", "src/pyftle/ftle_solver.py: FTLESolver.run", "src/pyftle/integrate.py", "src/pyftle/cauchy_green.py", "src/pyftle/ftle.py"]}
{"id": "C112", "title": "The whole program computes the FTLE of gridded 2D data in double precision", "statement": "Run from the command line on lists of gridded 2D velocity, coordinate and particle files with the compiled grid interpolator, any of the three integrators, a flow map period of n-1 time steps and MAT or VTK output, the program ends without an exception, reports a failure only if a worker process was killed, and otherwise leaves exactly one output file per window of n snapshots, named after the first snapshot of the window, that holds for each seed its position and the FTLE of the flow of the sampled velocity field from the start of that window (backward in time for a negative time step), up to an explicit error bound covering sampling, interpolation, time stepping and rounding. No other file is changed.", "quantifier": "for every command line, grid, velocity field with bounded gradient, lists of files, particle files, time step of either sign, number of processes, interleaving of the processes and previous output files, subject to stated bounds on magnitudes", "why_tests_cant": "no test can range over all flows, grids, file lists and interleavings, and the true flow is not available to a test except in special cases", "anchors": ["src/pyftle/__main__.py:main", "src/pyftle/__main__.py:MultipleFTLEProcessManager", "src/pyftle/parallel.py:ParallelExecutor", "src/pyftle/data_source.py:FileBatchSource", "src/pyftle/file_readers.py", "src/pyftle/interpolate.py:HighPerfInterpolator", "src/pyftle/integrate.py", "src/pyftle/ftle_solver.py:FTLESolver", "src/pyftle/file_writers.py:MatWriter"]}
{"id": "C113", "title": "AnalyticalSolver computes the FTLE of steady flows to a stated accuracy, end to end", "statement": "For a velocity function that evaluates a steady flow, AnalyticalSolver.run returns (or, with a writer, leaves in one file per start time) the FTLE of the flow at every seed, for every start time, up to an explicit bound that covers the integration error, all rounding in binary64 and the FTLE formula. A run that does not deliver this raises BrokenProcessPool because a worker process was killed; a run that delivers it exists. Files are named after the start time with six decimals; no other file changes.", "quantifier": "All steady flows with a Lipschitz velocity, velocity functions that evaluate them to a given accuracy, seeds in the plane or in space, integrators, time steps forward and backward, numbers of fields and of worker processes, both output formats, and all interleavings of main process, workers and monitor.", "why_tests_cant": "Tests compare a few fields at a few points with loose tolerances and one process; the bound concerns all flows and every rounding, and the rows must be in order and complete for every schedule.", "anchors": ["src/pyftle/api.py:AnalyticalSolver", "src/pyftle/ftle_solver.py:FTLESolver.run", "src/pyftle/parallel.py:ParallelExecutor.run", "src/pyftle/data_source.py:AnalyticalBatchSource", "src/pyftle/file_writers.py"]}
{"id": "C114", "title": "A file task on gridded 3D data returns the FTLE of the flow whose velocity was sampled", "statement": "Given velocity files that sample a 3D velocity field at the nodes of a regular grid, coordinate files that hold the grid and a particle file with the six neighbours of each seed, a task with the compiled grid interpolator returns - or writes, with the seed centres, under the name of its first velocity file - for every seed the FTLE of the flow of that velocity field. The error is at most (2^-34 + 12 E / (s a)) over the integration time; E adds the error of the samples, of interpolation (gradient times spacing), of rounding, and of the integrator.", "quantifier": "All 3D velocity fields with bounded gradient, all regular grids of at least 2x2x2 nodes with as many lines in x as in y, all samples accurate to eps, all seeds that stay on the grid, all three integrators, all admissible step counts, forward and backward in time, with or without a writer or a progress queue.", "why_tests_cant": "The claim joins reading, reordering of the samples, trilinear interpolation, integration, differentiation, an eigenvalue routine and the FTLE formula in floating point, and compares the result with a flow that no test can compute exactly.", "anchors": ["src/pyftle/data_source.py: FileBatchSource", "src/pyftle/file_readers.py: read_velocity, read_coordinate, read_seed_particles_coordinates", "src/pyftle/interpolate.py: HighPerfInterpolator", "src/pyftle/grid_interp/GridInterp.cpp: interp3d_vec_inplace", "src/pyftle/ftle_solver.py: FTLESolver.run", "src/pyftle/integrate.py", "src/pyftle/cauchy_green.py", "src/pyftle/ftle.py"]}
{"id": "C115", "title": "A program run on gridded 3D data leaves the FTLE of the sampled flow in its output files", "statement": "Given lists of velocity files that sample a 3D velocity field at equal times, coordinate files with the grid and particle files with seeds, a run with the grid interpolator ends without an exception; if no worker is killed it leaves for every window of snapshots an output file in the chosen format, named after the first snapshot, with the seeds and their FTLE up to the error bound of C114, and changes no other file; and such a run exists.", "quantifier": "All command lines, worker interleavings, process counts, integrators, time directions, output formats, 3D velocity fields with bounded gradient, regular nx x nx x nz grids, window lengths and seeds that stay on the grid.", "why_tests_cant": "It joins argument parsing, file lists, windows, process scheduling, all numerical steps in floating point and the output layout; a test covers one schedule on one data set and has no exact flow to compare with.", "anchors": ["src/pyftle/__main__.py", "src/pyftle/hyperparameters.py", "src/pyftle/ftle_solver.py", "src/pyftle/interpolate.py: HighPerfInterpolator", "src/pyftle/grid_interp/GridInterp.cpp: interp3d_vec_inplace", "src/pyftle/file_writers.py: MatWriter, VTKWriter"]}
{"id": "C116", "title": "A file task on scattered 2D data returns the FTLE of the flow whose velocity was sampled", "statement": "Given velocity files that hold velocities at points listed in any order, coordinate files with these points, a particle file with the four neighbours of each seed and no grid shape, a task with the cubic, linear or nearest interpolator returns - or writes, with the seed centres, under the name of its first velocity file - for every seed the FTLE of the flow of the sampled velocity field, provided SciPy reproduces the field up to delta in a region that the particles do not leave. The error is at most (2^-21 + 12 E / (s a)) over the integration time; E adds delta, rounding and the error of the integrator. For the nearest interpolator delta is the error of the samples plus the gradient times the distance to the nearest sample; likewise for any interpolator whose answers are weighted means of nearby samples.", "quantifier": "All 2D velocity fields with bounded gradient, all point sets and their order, all seeds that keep a distance from the border of the region, the three interpolators, all three integrators, all admissible step counts, forward and backward in time, with or without a writer or a progress queue, one coordinate file for all snapshots or one for each.", "why_tests_cant": "It joins reading, the choice of interpolator, its update at every step, integration, differentiation and the FTLE formula in floating point, and compares the result with a flow that no test can compute exactly, for every layout of the points.", "anchors": ["src/pyftle/data_source.py: FileBatchSource", "src/pyftle/file_readers.py: read_velocity, read_coordinate, read_seed_particles_coordinates", "src/pyftle/interpolate.py: CubicInterpolator, LinearInterpolator, NearestNeighborInterpolator, create_interpolator", "src/pyftle/ftle_solver.py: FTLESolver.run", "src/pyftle/integrate.py", "src/pyftle/cauchy_green.py", "src/pyftle/ftle.py"]}
{"id": "C117", "title": "A program run on scattered 2D data leaves the FTLE of the sampled flow in its output files", "statement": "Given lists of velocity files with velocities at points in any order, one or more coordinate files with the points and particle files with seeds, a run with the cubic, linear or nearest interpolator and no grid shape ends without an exception; if no worker is killed it leaves for every window of snapshots an output file in the chosen format, named after the first snapshot, with the seeds and their FTLE up to the error bound of C116, and changes no other file; and such a run exists.", "quantifier": "All command lines, worker interleavings, process counts, integrators, time directions, output formats, 2D velocity fields with bounded gradient, point sets, numbers of coordinate files, window lengths and seeds that stay in the region where SciPy reproduces the field.", "why_tests_cant": "It joins argument parsing, file lists, windows, process scheduling, all numerical steps in floating point and the output layout; a test covers one schedule on one data set and has no exact flow to compare with.", "anchors": ["src/pyftle/__main__.py", "src/pyftle/hyperparameters.py", "src/pyftle/ftle_solver.py", "src/pyftle/interpolate.py: CubicInterpolator, LinearInterpolator, NearestNeighborInterpolator", "src/pyftle/file_writers.py: MatWriter, VTKWriter"]}
{"id": "C118", "title": "Results do not depend on the contents of freshly allocated memory", "statement": "Two runs of the command line program, or of AnalyticalSolver, on the same inputs can end in the same ways, with the same result, messages and output files, whatever the arrays that the program allocates without initialising them (np.empty, np.empty_like, the C++ extension's buffers) contain.", "quantifier": "every command line, input file, SciPy, arithmetic, schedule and every two contents of fresh memory", "why_tests_cant": "fresh memory is usually zero in tests and cannot be controlled; a dependence shows only on some allocations", "anchors": ["src/pyftle/interpolate.py:NearestNeighborInterpolator.interpolate", "src/pyftle/interpolate.py:LinearInterpolator.interpolate", "src/pyftle/integrate.py:RungeKutta4Integrator", "src/pyftle/__main__.py:main", "src/pyftle/api.py:AnalyticalSolver"]}
{"id": "C119", "title": "The command line program accepts exactly the documented options", "statement": "The program starts exactly if the experiment name, the three file lists, the timestep and the period are given, the numbers are numbers, the integrator, interpolator and output format are among the documented words or absent, the number of processes is an integer or absent, and each grid shape is a list of two or three positive integers or absent; it then works with exactly the values given. Otherwise it exits with SystemExit and changes no file.", "quantifier": "every command line (or configuration file) and every state of the disk", "why_tests_cant": "unit tests try a few option combinations", "anchors": ["src/pyftle/hyperparameters.py:parse_args", "src/pyftle/hyperparameters.py:parse_tuple", "src/pyftle/__main__.py:main"]}
{"id": "C120", "title": "Velocity samples on unequally spaced rectangular grids are placed at their points", "statement": "With a grid shape, interpolation on 'structured, rectangular grids' (docstring) returns at each point given to update the velocity sample given for it, also when the grid lines are not equally spaced or the points are listed in another order.", "quantifier": "all line positions and grid shapes, all samples, all interpolators created with a grid shape, all histories of calls", "why_tests_cant": "a test with one equally spaced grid passes; the claim is about all spacings and orders", "anchors": ["src/pyftle/interpolate.py:HighPerfInterpolator._initialize_interpolator", "src/pyftle/interpolate.py:GridInterpolator._initialize_interpolator"]}
{"id": "C121", "title": "The FTLE field is the same in every system of units", "statement": "Describe the same flow in other units and from another origin: lengths multiplied by s and shifted by b, times multiplied by c, velocities by s/c, the time step by c, with the same number of snapshots and the same integration method. Then every FTLE value of the second run is the value of the first run divided by |c| (a rate in the new unit of time), infinities and NaN stay, and a run that raises raises the same exception. In particular the unit of length and the origin do not matter. In exact arithmetic.", "quantifier": "every pair of velocity data sets, seed groups, numbers of snapshots, time steps and integration methods related by a change of units (s, c nonzero, b arbitrary), in 2D and 3D, whatever the interpolators and data sources", "why_tests_cant": "the property relates two runs on arbitrary data; a test compares one data set in two units", "anchors": ["src/pyftle/ftle_solver.py:FTLESolver.run", "src/pyftle/integrate.py", "src/pyftle/ftle.py:compute_ftle_2x2", "src/pyftle/cauchy_green.py:compute_flow_map_jacobian_2x2"]}
{"id": "C122", "title": "Adding snapshots to a series keeps the existing fields", "statement": "Append velocity files to the list of a run (with one coordinate or particle file per velocity file, append those too; otherwise leave these lists alone) and run again. Every window of the shorter series is computed again from the same velocity, coordinate and particle files, and its output file has the same name and contents.", "quantifier": "every list of velocity, coordinate and particle files, every number of appended files, window length, integrator, interpolator, output format and schedule, forward and backward in time", "why_tests_cant": "it relates two runs over arbitrary lists and schedules; the failing case needs a backward run and a number of particle files that does not divide the number of new snapshots", "anchors": ["src/pyftle/__main__.py:MultipleFTLEProcessManager._create_batches", "src/pyftle/__main__.py:MultipleFTLEProcessManager._handle_time_direction"]}
{"id": "C123", "title": "The notebooks' seed recipe puts each value at its grid point", "statement": "Seeds that are made as in the example notebooks (meshgrid, column_stack, four or six shifted copies, stack on axis 1, reshape in column-major order) are accepted by NeighboringParticles, and the image ftle_field.reshape(Xc.shape) of a run of AnalyticalSolver shows at every pixel the FTLE of the flow map at that pixel's own grid point. The particle file written in the second notebook holds the same particles.", "quantifier": "every list of grid coordinates (also empty and of different lengths per axis), spacing, velocity field, integrator, number of steps, number of fields and processes, and schedule of the workers; in the plane and in space", "why_tests_cant": "A test checks one grid. The recipe mixes row-major and column-major orders of three axes, and whether they cancel depends on the lengths of all of them: equal lengths or symmetric flows hide a wrong order.", "anchors": ["examples/01_Closed-form_velocity.ipynb", "examples/01_Closed-form_velocity_helical.ipynb", "examples/02_File-based_IO.ipynb", "src/pyftle/particles.py:NeighboringParticles", "src/pyftle/api.py:AnalyticalSolver.run", "src/pyftle/file_readers.py:read_seed_particles_coordinates"]}
{"id": "C124", "title": "An interrupted or failed run can simply be repeated", "statement": "When a run of the command line program was stopped at any moment (a failure, a killed worker, everything killed, the power cut) or has ended normally, running the same command again and letting it end without a failure leaves exactly the files that it would have left on the original disk, however many runs were stopped before and whatever they left in the output files; and nothing that is left keeps it from ending without a failure. Provided that no two fields share an output file (C48). The same holds for AnalyticalSolver with output files.", "quantifier": "every command line, list of files, inputs, disk before, number of earlier runs (also with other options, processes or inputs, as long as they write only files that this run writes), moment at which each was stopped, and schedule; every arithmetic", "why_tests_cant": "The moments at which a run with many processes can be stopped, and the files that are half-written then, cannot be enumerated by tests, and less so histories of several such runs.", "anchors": ["src/pyftle/__main__.py:main", "src/pyftle/__main__.py:MultipleFTLEProcessManager", "src/pyftle/parallel.py:ParallelExecutor.run", "src/pyftle/file_writers.py:FTLEWriter", "src/pyftle/ftle_solver.py:FTLESolver.run", "src/pyftle/api.py:AnalyticalSolver.run"]}
{"id": "C125", "title": "Repeating a run never costs a field that is already there", "statement": "Once the complete and right file of a field is on disk, repeating the same command keeps it complete and right at every later moment, also if the repeated run is stopped.", "quantifier": "every history of runs of the same command, each stopped at any moment", "why_tests_cant": "A test would have to stop the program in the short time between opening a file and having written it, for each of its files.", "anchors": ["src/pyftle/__main__.py:MultipleFTLEProcessManager", "src/pyftle/file_writers.py:MatWriter.write", "src/pyftle/file_writers.py:VTKWriter.write", "src/pyftle/parallel.py:ParallelExecutor.run"]}
{"id": "C126", "title": "The FTLE field does not depend on the choice of coordinate axes", "statement": "Describe the same flow along other axes: exchange x and y (in 3D, put the three axes in any order), reverse some of them, express the seeds and every snapshot in the new coordinates, and name each seed's neighbours after the new axes. A run with the same integrator and time step then returns the same FTLE field, value by value, or fails with the same error. Exchanging the two axes of the plane changes no bit of a binary64 result.", "quantifier": "all 8 choices of axes in the plane and all 48 in space, all velocity fields, seeds, time steps, numbers of steps, the three integrators, and all interpolators and data sources that present the snapshots; exchange of the two axes in every arithmetic with commutative sums and products", "why_tests_cant": "A test compares two runs of one flow; the claim relates the two runs for every flow and every axis choice, and a bug such as a transposed Jacobian entry or a Cauchy-Green factor in the wrong order is invisible on symmetric flows.", "anchors": ["src/pyftle/ftle_solver.py:FTLESolver.run", "src/pyftle/cauchy_green.py:compute_flow_map_jacobian_2x2", "src/pyftle/cauchy_green.py:compute_flow_map_jacobian_3x3", "src/pyftle/ftle.py:compute_ftle_2x2", "src/pyftle/ftle.py:compute_ftle_3x3", "src/pyftle/integrate.py"]}
{"id": "C127", "title": "Observers in uniform motion get the same field", "statement": "Two observers, one moving at a constant velocity relative to the other, describe the same flow by their own snapshots (positions shifted by the motion, velocities by its speed), with the same seeds, time step and method. Then a run returns the same FTLE field for both.", "quantifier": "all velocity fields, relative velocities and offsets, seeds, time steps, numbers of steps, methods, interpolators and data sources that present the snapshots", "why_tests_cant": "It relates two runs for every flow and every relative velocity; a test that compares one pair of runs with a tolerance cannot tell a discretisation error from a violation, and the usual test flows are steady or affine, where the difference does not show.", "anchors": ["src/pyftle/integrate.py:EulerIntegrator", "src/pyftle/integrate.py:AdamsBashforth2Integrator", "src/pyftle/integrate.py:RungeKutta4Integrator", "src/pyftle/ftle_solver.py:FTLESolver.run", "src/pyftle/cauchy_green.py:compute_flow_map_jacobian_2x2", "src/pyftle/cauchy_green.py:compute_flow_map_jacobian_3x3"]}
{"id": "C128", "title": "Lists of velocity files are in the order of time", "statement": "The list of velocity files that the notebook's recipe writes, and the one that create_list_of_input_files.py writes, name the snapshots in the order of their numbers, whatever the order in which the operating system lists the directory, and pyFTLE reads them back in that order.", "quantifier": "every number of snapshots, every width of the numbers, every directory and every order and set of its entries", "why_tests_cant": "A test has a few dozen files; the order goes wrong only when the count outgrows the digits (10000 files with the notebook's four), and the order of os.listdir is not fixed.", "anchors": ["examples/02_File-based_IO.ipynb: cells 8, 12, 14", "create_list_of_input_files.py", "src/pyftle/file_utils.py: get_files_list"]}
{"id": "C129", "title": "The script makes the lists that the notebook makes", "statement": "For a directory of input files, create_list_of_input_files.py makes the same lists as the function generate_list_of_filenames of the notebook, as the notebook says.", "quantifier": "every directory of input files", "why_tests_cant": "It is a claim about every set of names; a test uses names for which both agree.", "anchors": ["examples/02_File-based_IO.ipynb: cells 8, 14, 15", "create_list_of_input_files.py", "src/pyftle/file_utils.py: find_files_with_pattern"]}
{"id": "C130", "title": "The number of results is N_snapshots - flow_map_period / |snapshot_timestep|", "statement": "When the step divides the period k times and there are N > k snapshots with different names, a run of the command line program that ends without an error leaves exactly N - k new result files, each complete, and changes no other file.", "quantifier": "every command line, every list of files, every dataset, step and period, every schedule of the workers", "why_tests_cant": "The number depends on the rounding of a quotient of two decimal numbers, and on every schedule; a test has a few pairs of numbers.", "anchors": ["README.md: FTLE Computation Details", "src/pyftle/__main__.py: MultipleFTLEProcessManager._create_batches, main"]}
{"id": "C131", "title": "A backward run gives the fields of the reversed flow", "statement": "A run of the command line program with a negative time step leaves the same files, and can end in the same ways, as a run with the opposite time step on the reversed lists of files in which every velocity has the opposite sign (exact arithmetic; interpolation that changes sign with the samples).", "quantifier": "all data sets (also malformed ones), lists, options, interpolators, integrators, formats, schedules, failures and contents of fresh memory", "why_tests_cant": "It relates two runs of the whole program for every data set and schedule; a test compares two runs on one data set.", "anchors": ["src/pyftle/__main__.py: MultipleFTLEProcessManager._handle_time_direction, _create_batches, _worker", "src/pyftle/ftle_solver.py: FTLESolver.run", "src/pyftle/integrate.py", "src/pyftle/interpolate.py", "src/pyftle/grid_interp/GridInterp.cpp", "README.md: snapshot_timestep"]}
{"id": "C132", "title": "A field depends only on the files of its window", "statement": "Take two runs of the command line program with the same options (the lists of files and the number of processes may differ), both ending without a reported failure. If a window of the first run and a window of the second consist of the same velocity, coordinate and particle files in the same order, and these files hold the same data in both runs, then both runs leave the same result under the same name for that window. Changing, adding or removing any other input file does not change it, nor does the place of the window in the series, what was on disk before, the schedule or the contents of fresh memory (seeds or velocities not scattered in space).", "quantifier": "every pair of command lines, lists, data sets, schedules, disk contents and fresh memory, every window they have in common, every arithmetic", "why_tests_cant": "the property compares arbitrary pairs of whole runs under arbitrary schedules; a test can only compare two particular data sets", "anchors": ["src/pyftle/__main__.py:MultipleFTLEProcessManager._create_batches", "src/pyftle/__main__.py:MultipleFTLEProcessManager._worker", "src/pyftle/data_source.py:FileBatchSource.get_data_for_step", "src/pyftle/parallel.py:ParallelExecutor.run"]}
{"id": "C133", "title": "A series can be processed in parts", "statement": "A run of the command line program on a part of consecutive snapshots of a series, forward or backward in time, with the part of the coordinate and particle lists that belongs to it (or with the one file that is used for all), leaves the same results as a run on the whole series, for each window that lies in the part. Both runs end without a reported failure; snapshots have different base names.", "quantifier": "every series, every part of it, every window in the part, both directions of time, every schedule and arithmetic", "why_tests_cant": "the property quantifies over all splits of all series and over the schedules of two concurrent runs", "anchors": ["src/pyftle/__main__.py:MultipleFTLEProcessManager._create_batches", "src/pyftle/__main__.py:MultipleFTLEProcessManager._handle_time_direction", "src/pyftle/data_source.py:FileBatchSource"]}
{"id": "C134", "title": "Options in the configuration file", "statement": "Running the program with -c and a configuration file whose lines are comments or settings `name: value` does what the same options on the command line would do. Options on the command line count more than the file, and in the file the last line about an option counts. Values may be quoted and followed by a comment.", "quantifier": "every list of such lines in every order, every value, every set of options on the command line, every input and every execution", "why_tests_cant": "The values and the layout of the lines are arbitrary; tests try a few files.", "anchors": ["src/pyftle/hyperparameters.py: parser, --config, parse_args", "config.yaml", "README.md"]}
{"id": "C135", "title": "The configuration file is YAML", "statement": "The configuration file is in YAML format, as the help of --config says: a value in it means what it means in YAML.", "quantifier": "every YAML mapping from options to scalars or sequences", "why_tests_cant": "It is a claim about every file; it fails for values with a semicolon after a blank and for sequences.", "anchors": ["src/pyftle/hyperparameters.py: --config", "config.yaml"]}
{"id": "C136", "title": "Mistakes in the configuration file are reported", "statement": "A line about something that is no option is not passed over silently: the program exits with SystemExit before it reads or writes any data. So it does if the configuration file cannot be opened.", "quantifier": "every unknown name, every other line of the file, every set of options on the command line", "why_tests_cant": "The names that a user may mistype are arbitrary.", "anchors": ["src/pyftle/hyperparameters.py: parser, parse_args", "src/pyftle/__main__.py: main"]}
{"id": "C137", "title": "The FTLE never exceeds the strain rate of the flow", "statement": "If the velocities of any two points of the flow differ by at most L times the distance of the points, then no value of the field that a run with n snapshots h apart returns exceeds (ln d + c n |h| L) / ((n - 1) |h|), where d is the dimension and c is 1 (2 for the ab2 integrator); the field has one value per seed group.", "quantifier": "every field with Lipschitz constant L in 2-D and 3-D, steady or varying from snapshot to snapshot, every set of axis-aligned seed groups, every number of snapshots from two on, time step of either sign, and integrator; exact arithmetic", "why_tests_cant": "The bound is over all fields, seeds and numbers of steps; a test can look at a few flows only, and those with a known FTLE say nothing about the others.", "anchors": ["src/pyftle/ftle_solver.py: FTLESolver.run", "src/pyftle/ftle.py: compute_ftle_2x2, compute_ftle_3x3", "src/pyftle/integrate.py: EulerIntegrator, AdamsBashforth2Integrator, RungeKutta4Integrator", "src/pyftle/cauchy_green.py"]}
{"id": "C138", "title": "A flow whose particles never meet has a finite FTLE everywhere", "statement": "In a flow whose velocities are Lipschitz in space no two particles ever meet, so no seed has the FTLE minus infinity.", "quantifier": "every field with Lipschitz constant L in 2-D and 3-D, every set of axis-aligned seed groups, number of snapshots, time step and integrator; exact arithmetic", "why_tests_cant": "Minus infinity appears only for particular combinations of field, step and seeds; the absence of it on test flows says nothing about other flows.", "anchors": ["src/pyftle/ftle_solver.py: FTLESolver.run", "src/pyftle/ftle.py: compute_ftle_2x2, compute_ftle_3x3", "src/pyftle/integrate.py: EulerIntegrator, AdamsBashforth2Integrator, RungeKutta4Integrator", "src/pyftle/cauchy_green.py"]}
{"id": "C139", "title": "Solid-body rotation has FTLE zero", "statement": "In a flow that rotates as a rigid body nothing is stretched, so every value of the FTLE field of a run is zero.", "quantifier": "every angular velocity, centre of rotation, set of axis-aligned seed groups, number of snapshots from two on and time step of either sign; exact arithmetic", "why_tests_cant": "The value depends on the step, the number of steps and the integrator; a test with a tolerance accepts a small non-zero value and says nothing about larger steps.", "anchors": ["src/pyftle/ftle_solver.py: FTLESolver.run", "src/pyftle/ftle.py: compute_ftle_2x2", "src/pyftle/integrate.py: EulerIntegrator, RungeKutta4Integrator", "src/pyftle/cauchy_green.py: compute_flow_map_jacobian_2x2"]}
{"id": "C140", "title": "The FTLE of an incompressible flow is never negative", "statement": "In a flow of zero divergence volumes are preserved, so some direction is not contracted and no value of the FTLE field of a run is negative.", "quantifier": "every divergence-free velocity field, set of axis-aligned seed groups, number of snapshots from two on, time step of either sign and integrator; exact arithmetic", "why_tests_cant": "The sign has to hold for all incompressible flows and all steps; a test looks at a few flows, most of them with positive values.", "anchors": ["src/pyftle/ftle_solver.py: FTLESolver.run", "src/pyftle/ftle.py: compute_ftle_2x2", "src/pyftle/integrate.py: EulerIntegrator, RungeKutta4Integrator", "src/pyftle/cauchy_green.py: compute_flow_map_jacobian_2x2"]}
{"id": "C141", "title": "Options mean the same in any order and spelling", "statement": "Each option can be given as `--name value` or `--name=value` (the configuration file also as `-c path`), the options in any order, and the program does the same; if an option is repeated its last value counts.", "quantifier": "every list of options and values that do not begin with a dash or are plain negative decimals (any value in the one-argument form), every choice of spellings, every order, every state of the disk; values may also be wrong", "why_tests_cant": "There are unboundedly many argument lists; tests of the parser call it on one or two of them.", "anchors": ["src/pyftle/hyperparameters.py: parser, parse_args", "src/pyftle/__main__.py: main", "README.md: Usage"]}
{"id": "C142", "title": "Every negative time step can be given on the command line", "statement": "The option --snapshot_timestep documents that a negative value asks for backward-time fields; it accepts any negative number that Python's float() reads.", "quantifier": "every notation of a negative number, every position among the other arguments", "why_tests_cant": "The notations that fail have to be looked for; a test with -0.1 passes.", "anchors": ["src/pyftle/hyperparameters.py: parser, parse_args", "src/pyftle/__main__.py: main", "README.md: Usage"]}
{"id": "C143", "title": "Every argument is used or reported", "statement": "An argument that is no option, a value that belongs to no option, an option without value and an ambiguous abbreviation end the program with SystemExit before it reads or writes data; otherwise every argument takes part in what the program does.", "quantifier": "every list of arguments and every state of the disk", "why_tests_cant": "It is a claim about all argument lists; tests try a few wrong ones.", "anchors": ["src/pyftle/hyperparameters.py: parser, parse_args", "src/pyftle/__main__.py: main", "README.md: Usage"]}
{"id": "C144", "title": "The command in the README runs", "statement": "The command line that the README gives starts the program with the options that it shows.", "quantifier": "every state of the disk, with the files of the command present or not", "why_tests_cant": "The README is not tested.", "anchors": ["README.md: Usage", "src/pyftle/hyperparameters.py: parser, parse_args"]}
{"id": "C145", "title": "A configuration file is worth as much as its lines given as arguments", "statement": "Starting the program with a configuration file whose lines are understood, and any other options, has the same outcomes and writes the same files as starting it without the file but with `--name=value` for each of its lines, in their order, before those options.", "quantifier": "every configuration file of understood lines, every list and spelling of further options with acceptable values, every state of the disk", "why_tests_cant": "The claim compares two whole runs for every configuration file; tests run the parser on one file.", "anchors": ["src/pyftle/hyperparameters.py: parser, parse_args", "src/pyftle/__main__.py: main", "config.yaml"]}
{"id": "C146", "title": "In a shear flow the stretching is exact with every method", "statement": "In a steady shear flow (velocity A x + b with A A = 0) the Euler, AB2 and RK4 methods report the same FTLE, whatever the time step, its sign and the number of snapshots: the logarithm of the largest stretching of the exact flow map over the time of n steps, divided by (n-1)|h|. For the velocity (k y, 0) it is ln((|g| + sqrt(g^2 + 4))/2)/((n-1)|h|) with g = k n h.", "quantifier": "every shear matrix in two and three dimensions, every offset, step, number of snapshots >= 2, method and set of seeds aligned with the axes", "why_tests_cant": "Tests compare single runs with tolerances; the claim is an equality for all shears, steps and methods.", "anchors": ["src/pyftle/integrate.py: EulerIntegrator, AdamsBashforth2Integrator, RungeKutta4Integrator", "src/pyftle/ftle_solver.py: FTLESolver.run", "src/pyftle/ftle.py"]}
{"id": "C147", "title": "The FTLE of pure strain is the strain rate", "statement": "In the flow with velocity (k x, -k y), plus any constant, every seed has the FTLE |k|, forward and backward in time. In the flow (k0 x, k1 y, k2 z) it is the largest rate of stretching in the direction of time.", "quantifier": "every strain rate, offset, step, number of snapshots >= 2, and set of seeds aligned with the axes", "why_tests_cant": "Tests compare one run with a tolerance wide enough to hide both the wrong divisor and the error of the method.", "anchors": ["src/pyftle/ftle_solver.py: FTLESolver.run", "src/pyftle/integrate.py: EulerIntegrator, RungeKutta4Integrator", "src/pyftle/ftle.py"]}
