{"claims": [
 {"property": "C01", "status": "proved", "theorems": ["C01_cauchy_green_2d"], "note": "over exact reals"},
 {"property": "C02", "status": "partial", "theorems": ["C02_cauchy_green_3d_refuted", "C02_cauchy_green_3d_partial", "C02_cauchy_green_3d_exact"], "note": "REFUTED: the code computes F F^T; a shear is a witness. Exact behaviour and the exact condition (F normal) are proved."},
 {"property": "C03", "status": "proved", "theorems": ["C03_same_spectrum_3d", "C03_max_eigenvalue_3d"], "note": "numpy eigvals is an oracle returning the characteristic roots"},
 {"property": "C04", "status": "proved", "theorems": ["C04_max_eigenvalue_2d"], "note": "over exact reals"},
 {"property": "C05", "status": "proved", "theorems": ["C05_ftle_2d", "C05_ftle_2d_zero_period", "C05_norm_exists", "C05_norm_unique"], "note": "over exact reals"},
 {"property": "C06", "status": "proved", "theorems": ["C06_ftle_3d", "C06_ftle_3d_zero_period", "C06_norm_exists", "C06_norm_unique"], "note": "over exact reals; eigvals oracle returns the characteristic roots of symmetric matrices in any order (shown satisfiable)"},
 {"property": "C07", "status": "proved", "theorems": ["C07_nonneg_2d", "C07_nonneg_3d", "C07_isometry_2d", "C07_isometry_3d"], "note": "over exact reals"},
 {"property": "C08", "status": "proved", "theorems": ["C08_frame_2d", "C08_frame_3d", "C08_scaling_2d", "C08_scaling_3d"], "note": "over exact reals"},
 {"property": "C09", "status": "partial", "theorems": ["C09_finite_refuted", "C09_nan_only_near_conformal"], "note": "REFUTED: rounding makes the discriminant negative for diag(1.4, nextafter(1.4)), the FTLE is NaN. What holds (C09_nan_only_near_conformal): for entries of moderate size, NaN can only occur when the squared singular values agree to a relative 2^-22; otherwise the number whose logarithm is taken is finite and accurate to 2^-24."},
 {"property": "C10", "status": "proved", "theorems": ["C10_bitwise_symmetric"], "note": "every binary64 matrix; Coq identifies all NaN payloads"},
 {"property": "C11", "status": "proved", "theorems": ["C11_jacobian_affine_2d", "C11_jacobian_affine_3d"], "note": "over exact reals"},
 {"property": "C12", "status": "proved", "theorems": ["C12_jacobian_error_2d", "C12_jacobian_error_3d"], "note": "over exact reals; numba's default error model raises ZeroDivisionError (trusted base)"},
 {"property": "C13", "status": "proved", "theorems": ["C13_layout_2d", "C13_layout_3d", "C13_every_array_is_a_layout_2d", "C13_every_array_is_a_layout_3d"], "note": "every arithmetic"},
 {"property": "C14", "status": "partial", "theorems": ["C14_documented_layout_refuted", "C14_consecutive_groups_refuted"], "note": "REFUTED: the class reads blocks left,right,top,bottom (C13), not consecutive groups."},
 {"property": "C15", "status": "proved", "theorems": ["C15_accept_2d", "C15_accept_3d"], "note": "every arithmetic"},
 {"property": "C16", "status": "proved", "theorems": ["C16_geometry_2d", "C16_geometry_3d"], "note": "every arithmetic, every interpolator returning arrays, failing histories included"},
 {"property": "C17", "status": "partial", "theorems": ["C17_front_back_2d_refuted", "C17_front_back_2d_exact"], "note": "REFUTED: in 2D the property returns top - bottom; initial_delta_front_back is empty."},
 {"property": "C18", "status": "proved", "theorems": ["C18_euler_step", "C18_ab2_first_step", "C18_ab2_next_step", "C18_rk4_step", "C18_history"], "note": "every arithmetic"},
 {"property": "C19", "status": "proved", "theorems": ["C19_no_leak"], "note": "every arithmetic, every interpolator"},
 {"property": "C20", "status": "proved", "theorems": ["C20_ab2_size_change"], "note": "a change of shape; numpy broadcasting of single-row arrays excluded (cannot occur)"},
 {"property": "C21", "status": "proved", "theorems": ["C21_particles_independent"], "note": "every arithmetic"},
 {"property": "C22", "status": "proved", "theorems": ["C22_uniform_flow"], "note": "over exact reals"},
 {"property": "C23", "status": "proved", "theorems": ["C23_rk4_linear", "C23_euler_linear"], "note": "over exact reals"},
 {"property": "C24", "status": "partial", "theorems": ["C24_rk4_times_refuted", "C24_rk4_times_exact", "C24_rk4_times_partial"], "note": "REFUTED: all four stages see the field at the interpolator's current time. Exact behaviour proved; agrees for time-independent fields."},
 {"property": "C25", "status": "proved", "theorems": ["C25_time_reversal", "C25_binary64", "C25_binary64_bitwise_refuted"], "note": "over exact reals; in binary64 the positions are the same numbers (only the sign of a zero can differ, shown by the refutation), for fields that do not tell 0 from -0"},
 {"property": "C26", "status": "proved", "theorems": ["C26_create_integrator"], "note": "ASCII case folding; the Kelvin sign is outside the model"},
 {"property": "C27", "status": "partial", "theorems": ["C27_kernel_2d_memory_safe", "C27_kernel_3d_memory_safe_partial", "C27_kernel_3d_overflow_refuted", "C27_unfit_coordinates", "C27_shapes_2d", "C27_shapes_3d"], "note": "2-D: proved whenever the coordinates fit an int. 3-D: proved when ny*nz fits an int; REFUTED otherwise (int overflow in the flat index). Every arithmetic. Arrays of other shapes are refused (C27_shapes_2d, C27_shapes_3d)."},
 {"property": "C28", "status": "proved", "theorems": ["C28_bilinear", "C28_trilinear"], "note": "over exact reals"},
 {"property": "C29", "status": "proved", "theorems": ["C29_zero_outside_2d", "C29_zero_outside_3d"], "note": "over exact reals"},
 {"property": "C30", "status": "partial", "theorems": ["C30_last_line_refuted", "C30_last_lines_are_zero"], "note": "REFUTED: on the last grid lines the answer is zero, whatever the data."},
 {"property": "C31", "status": "proved", "theorems": ["C31_grid_2d"], "note": "over exact reals"},
 {"property": "C32", "status": "partial", "theorems": ["C32_grid_3d_partial", "C32_grid_3d_refuted"], "note": "Proved for nx = ny. REFUTED for every nx <> ny (wrong data or exception)."},
 {"property": "C33", "status": "partial", "theorems": ["C33_velocity_only_2d_refuted", "C33_velocity_only_3d_refuted"], "note": "REFUTED: the raw (components x samples) array replaces the gridded one; every grid, every later query."},
 {"property": "C34", "status": "partial", "theorems": ["C34_structured_velocity_only_3d_partial", "C34_structured_velocity_only_2d_refuted", "C34_spline_updates_ignored"], "note": "3-D proved for methods evaluating current values. REFUTED in 2-D (first update C order, later updates Fortran order) and for 'cubic', whose spline keeps the first values."},
 {"property": "C35", "status": "proved", "theorems": ["C35_unstructured_velocity_only"], "note": "every arithmetic, every SciPy"},
 {"property": "C36", "status": "partial", "theorems": ["C36_third_component_refuted", "C36_third_component_is_memory", "C36_three_points"], "note": "REFUTED: unless there are exactly three query points the third column is uninitialised memory."},
 {"property": "C37", "status": "partial", "theorems": ["C37_three_points_2d_refuted", "C37_three_points_2d_never", "C37_other_counts_2d"], "note": "REFUTED: three query points in 2-D raise. Other counts proved."},
 {"property": "C38", "status": "partial", "theorems": ["C38_grid_queries_read_only", "C38_other_queries_read_only", "C38_grid_pointwise_2d", "C38_grid_pointwise_3d", "C38_wrong_query_refuted"], "note": "Proved for queries of the dimension of the data; REFUTED for 'grid' after a query of another dimension, which leaves a buffer of the wrong width."},
 {"property": "C39", "status": "partial", "theorems": ["C39_no_points_partial", "C39_grid_accepts_no_points_refuted", "C39_failed_update_answers_refuted"], "note": "Proved for the SciPy-based kinds. REFUTED for 'grid' without points and for queries after a failed update."},
 {"property": "C40", "status": "proved", "theorems": ["C40_interpolator_factory", "C40_grid_methods"], "note": "every arithmetic; ASCII case folding C40_grid_methods: constructing the grid interpolator directly accepts exactly linear, nearest, slinear, cubic and quintic."},
 {"property": "C41", "status": "proved", "theorems": ["C41_windows", "C41_window_length"], "note": "All list lengths and contents, any arithmetic; the window length characterised over the reals."},
 {"property": "C42", "status": "partial", "theorems": ["C42_backward_refuted", "C42_backward_partial", "C42_backward_exact"], "note": "REFUTED: unless the number of coordinate files divides the number of velocity files, the backward run pairs snapshots with other coordinate files than the forward run. Proved: the property when the lengths divide, and the exact pairing for all lengths."},
 {"property": "C43", "status": "proved", "theorems": ["C43_no_output"], "note": "Any arithmetic; every schedule of the executor; zero timestep, non-positive window, or more snapshots per window than files."},
 {"property": "C44", "status": "partial", "theorems": ["C44_decimal_refuted", "C44_decimal_near", "C44_exact_partial", "C44_real"], "note": "REFUTED in binary64 (0.3 / 0.1 gives 3 snapshots). Proved: k or k+1 for every decimal step and multiple; k+1 for exact binary64 multiples and over the reals."},
 {"property": "C45", "status": "proved", "theorems": ["C45_own_snapshot"], "note": "Unstructured interpolators (cubic, linear, nearest), which accept velocity-only updates; every history of a run, any arithmetic. The structured ones are C33/C34 (velocity-only updates do not work there)."},
 {"property": "C46", "status": "partial", "theorems": ["C46_times_refuted", "C46_only_time_zero", "C46_steady_partial", "C46_fields_equal"], "note": "REFUTED: tasks never set the time, so the velocity is evaluated at time 0 only. Proved: results depend only on the velocity at time 0; the property for steady fields. All the consecutive fields that run returns are the same one (C46_fields_equal)."},
 {"property": "C47", "status": "proved", "theorems": ["C47_times", "C47_times_real"], "note": "Any arithmetic with its rounding, and exactly (i+j)h over the reals."},
 {"property": "C48", "status": "partial", "theorems": ["C48_same_name_refuted", "C48_distinct_names_partial"], "note": "REFUTED: equal base names in different directories share an output file. Proved for distinct names with one extension in one directory."},
 {"property": "C49", "status": "partial", "theorems": ["C49_small_timestep_refuted", "C49_distinct_partial", "C49_binary64_partial"], "note": "REFUTED: ids keep six decimals, so timesteps below 5e-7 collide. Proved for |timestep| >= 1e-6 in exact reals, and for |timestep| >= 1.001e-6 and at most 2^36 fields in binary64."},
 {"property": "C50", "status": "proved", "theorems": ["C50_one_step_per_snapshot"], "note": "Exact characterisation (iff) of the successful run."},
 {"property": "C51", "status": "partial", "theorems": ["C51_elapsed_time_refuted", "C51_actual_divisor", "C51_factor_2d", "C51_factor_3d"], "note": "REFUTED: n steps of h are made but the divisor is (n-1)|h|. Proved: the divisor actually used, and that values in linear flows are exactly n/(n-1) times the normalised ones."},
 {"property": "C52", "status": "proved", "theorems": ["C52_single_snapshot_fails", "C52_zero_period_real", "C52_zero_period_binary64", "C52_zero_division_2d", "C52_zero_division_3d"], "note": "Failure without output for any arithmetic and any finite binary64 time step; the error is ZeroDivisionError when the velocity field can be sampled."},
 {"property": "C53", "status": "proved", "theorems": ["C53_progress", "C53_success"], "note": ""},
 {"property": "C54", "status": "partial", "theorems": ["C54_done_means_result_refuted", "C54_done_means_integrated"], "note": "REFUTED: 'done' is sent before the field is computed and written. Proved: 'done' means that all steps were integrated."},
 {"property": "C55", "status": "proved", "theorems": ["C55_output"], "note": "A write call that itself raises may leave a partial file: that is the writer's business (C75)."},
 {"property": "C56", "status": "partial", "theorems": ["C56_rerun_analytical_refuted", "C56_rerun_ab2_refuted", "C56_rerun_files_partial", "C56_any_history_partial"], "note": "REFUTED: the analytical source hands out the caller's particles, and AB2 remembers a velocity. Proved for file tasks with Euler or RK4: no history of tasks, failed ones included, changes the field of the next task, for every interpolator that reads files (plane seeds when the velocities are scattered; plane or spatial seeds on a grid with as many axes)."},
 {"property": "C57", "status": "proved", "theorems": ["C57_local_2d", "C57_local_3d"], "note": "Any arithmetic; velocity sources that can be sampled pointwise."},
 {"property": "C58", "status": "proved", "theorems": ["C58_uniform_2d", "C58_uniform_3d"], "note": "Exact reals."},
 {"property": "C59", "status": "proved", "theorems": ["C59_linear_2d", "C59_linear_3d"], "note": "Exact reals; the divisor (n-1)|h| of C51 appears in the statement."},
 {"property": "C60", "status": "proved", "theorems": ["C60_order", "C60_returns", "C60_effects"], "note": "Every number of tasks and workers and every schedule, also on an executor used before. Executor model: CPython's ProcessPoolExecutor manager thread, call queue, workers, futures."},
 {"property": "C61", "status": "proved", "theorems": ["C61_never_returns", "C61_raises", "C61_terminates", "C61_no_deadlock", "C61_can_end"], "note": "Every schedule, also with workers being killed."},
 {"property": "C62", "status": "partial", "theorems": ["C62_runtime_error_refuted", "C62_runtime_error_partial"], "note": "REFUTED: run re-raises the exception of the task whatever its type. Proved if tasks raise RuntimeError only; C61_raises says which exceptions are possible."},
 {"property": "C63", "status": "partial", "theorems": ["C63_no_further_task_refuted", "C63_exit_waits_refuted", "C63_cancelled_partial", "C63_begun_completed", "C63_completed_or_cancelled", "C63_cancelled_never"], "note": "REFUTED in both halves: leaving the with block resets the request to cancel before the manager thread may have seen it, and does not wait. Proved: if the request is seen, no waiting task ever starts; begun tasks are completed in the end; every task is completed or cancelled."},
 {"property": "C64", "status": "proved", "theorems": ["C64_monitor", "C64_complete", "C64_bars", "C64_run"], "note": "All interleavings, for message sequences and for runs of the executor model. C64_bars holds for every message sequence the monitor survives."},
 {"property": "C65", "status": "partial", "theorems": ["C65_monitor_refuted", "C65_few_partial", "C65_last_partial"], "note": "REFUTED: KeyError from an empty set of free positions. Proved if at most n task ids occur, or if each worker stops at its first failing task."},
 {"property": "C66", "status": "partial", "theorems": ["C66_stopped_refuted", "C66_exit_refuted", "C66_death_refuted", "C66_stopped_partial"], "note": "REFUTED for n_processes <= 0, for SystemExit in a task and for a worker dying during submission. Proved otherwise."},
 {"property": "C67", "status": "partial", "theorems": ["C67_refuted", "C67_stack_partial", "C67_points", "C67_single", "C67_none"], "note": "REFUTED: with num_ftles = 1 run returns a one-dimensional array (C67_single, concrete run C67_refuted). Proved for num_ftles >= 2: two-dimensional, one row per task in task order, each row the field of its task with one entry per point. num_ftles <= 0 raises IndexError, not the RuntimeError of the code (C67_none)."},
 {"property": "C68", "status": "proved", "theorems": ["C68_velocity", "C68_coordinate"], "note": "One row per component, last index fastest; ValueError exactly when a component is missing or sizes differ."},
 {"property": "C69", "status": "partial", "theorems": ["C69_column_major_refuted"], "note": "REFUTED: arrays are flattened in row-major order; what does hold is C68."},
 {"property": "C70", "status": "proved", "theorems": ["C70_seeds_2d", "C70_seeds_3d"], "note": "2-D and 3-D seed files, for every number of rows."},
 {"property": "C71", "status": "partial", "theorems": ["C71_missing_back_refuted", "C71_lengths_refuted", "C71_accepted_exact", "C71_accepted_six_exact", "C71_missing_key_partial", "C71_columns_four_partial", "C71_columns_six_partial"], "note": "REFUTED: a 3-D seed file without 'back' and arrays of different lengths are accepted when the total row count is divisible. The exact acceptance condition for files without front/back is proved."},
 {"property": "C72", "status": "proved", "theorems": ["C72_mat_grid", "C72_mat_points"], "note": "Every shape and data, any arithmetic; seed numbers explicit. Writers reused across dimensions are C76."},
 {"property": "C73", "status": "proved", "theorems": ["C73_vtk_grid_2d", "C73_vtk_points"], "note": "Every shape and data. Point order of pyvista structured grids (first index fastest) is trusted. Heights of seeds in space on a plane grid are C90."},
 {"property": "C74", "status": "partial", "theorems": ["C74_vtk_grid_3d_refuted", "C74_vtk_grid_3d_partial", "C74_vtk_grid_3d_exact"], "note": "REFUTED for every grid with nx, ny >= 2. Proved for nx = 1 or ny = 1; exact content for all shapes."},
 {"property": "C75", "status": "partial", "theorems": ["C75_wrong_size_partial", "C75_wrong_rank_partial", "C75_empty_shape_refuted", "C75_reused_refuted"], "note": "REFUTED: the empty shape is accepted by the MAT writer, and a reused VTK writer can accept a wrong number of seeds as cell data. Proved for all other shapes and writers used for one dimension."},
 {"property": "C76", "status": "partial", "theorems": ["C76_reuse_refuted", "C76_reuse_partial"], "note": "REFUTED: z is never stored, for every writer and every field. Proved: reuse for the same dimension is as good as new."},
 {"property": "C77", "status": "partial", "theorems": ["C77_refuted", "C77_round_trip_partial", "C77_comma", "C77_empty"], "note": "REFUTED: read_csv splits at commas, interprets quotes, skips blank lines and turns NA-like names into missing values. Proved: the round trip succeeds exactly for non-empty lists of plain paths (definition in SpecText.v)."},
 {"property": "C78", "status": "partial", "theorems": ["C78_refuted", "C78_entries", "C78_order", "C78_files_partial"], "note": "REFUTED: directories whose name contains the pattern are returned too. Proved: exactly the entries (files and directories) are returned, sorted; exactly the files if no directory matches."},
 {"property": "C79", "status": "partial", "theorems": ["C79_refuted", "C79_particle", "C79_warnings_partial", "C79_lists"], "note": "REFUTED: the third test of the script looks at the coordinates again, so missing particle files are not warned about. Proved: the exact warnings, and correctness when particle files exist or coordinate files are missing."},
 {"property": "C80", "status": "partial", "theorems": ["C80_accepts", "C80_rejects", "C80_refuted", "C80_shape_partial"], "note": "REFUTED: 'n,1' is accepted and gives a tuple with one entry. Proved: the exact set of accepted strings and results, ValueError otherwise, two or three entries in all other cases. ASCII digits and blanks only."},
 {"property": "C81", "status": "partial", "theorems": ["C81_refuted", "C81_needs_options", "C81_selected", "C81_interpolator", "C81_created", "C81_processes_partial"], "note": "REFUTED: the options have no default; omitting any of the three always ends in an exception. Proved: what is given is what is used, exactly when a manager is created, and the default of num_processes."},
 {"property": "C82", "status": "proved", "theorems": ["C82_duration", "C82_time_it", "C82_program"], "note": "datetimes as integers of microseconds; also for a clock going backwards."},
 {"property": "C83", "status": "partial", "theorems": ["C83_grid_static_refuted", "C83_program_refuted", "C83_notebook_refuted"], "note": "REFUTED: every such task fails and writes nothing, for any data and any arithmetic; every run of the program with these options ends, never without an error, and leaves all files as they were. C83_notebook_refuted: the same for the command `pyftle -c config.yaml` with the text of the configuration and the lists that the notebook makes, in binary64, whatever the files contain."},
 {"property": "C84", "status": "partial", "theorems": ["C84_documented_formula_refuted", "C84_documented_formula_partial", "C84_sign_2d", "C84_sign_3d"], "note": "REFUTED for negative periods: the code divides by T. Proved for positive periods.; C84_sign_2d/3d give the value for either sign: the negative of the documented one for negative periods"},
 {"property": "C85", "status": "partial", "theorems": ["C85_rotated_stencil_refuted"], "note": "REFUTED: the code divides by dx of right-left and dy of top-bottom only. Axis-aligned case is C11."},
 {"property": "C86", "status": "partial", "theorems": ["C86_structured_2d_placement", "C86_structured_2d_disagrees_refuted"], "note": "REFUTED: node (i,j) gets sample i*ny+j while the points list x fastest, so SciPy-structured and 'grid' disagree."},
 {"property": "C87", "status": "proved", "theorems": ["C87_cubic_2d", "C87_linear_2d", "C87_nearest_2d", "C87_linear_3d", "C87_nearest_3d", "C87_cubic_rejects_3d"], "note": "every arithmetic, every SciPy; the third column is what C36 says"},
 {"property": "C88", "status": "proved", "theorems": ["C88_structured_3d_placement"], "note": "over exact reals, every SciPy that reproduces its nodes"},
 {"property": "C89", "status": "partial", "theorems": ["C89_formats_2d_refuted", "C89_formats_3d_partial"], "note": "REFUTED in the plane for all nx, ny >= 2. Proved in space (positions; values are C74)."},
 {"property": "C90", "status": "partial", "theorems": ["C90_flattened_refuted"], "note": "REFUTED for every seed off z = 0."},
 {"property": "C91", "status": "proved", "theorems": ["C91_create_writer", "C91_other_formats"], "note": ""},
 {"property": "C92", "status": "proved", "theorems": ["C92_one_file", "C92_file_name"], "note": "Simplification: saving itself does not fail."},
 {"property": "C93", "status": "partial", "theorems": ["C93_refuted", "C93_partial", "C93_one_of_them", "C93_overlap", "C93_analytical_partial", "C93_real_partial"], "note": "REFUTED: two velocity files with the same base name in different directories give two tasks the same output file, and two schedules of the same run leave different files. Proved when the output names are different; without it, each file is the right output of one of the tasks with this name, or two of them had it open at the same time (C93_overlap: a run that returns normally with such a file). For AnalyticalSolver over the reals the names are different when |timestep| >= 1e-6. Memory of np.empty is a function of the task number and step, the same in both runs."},
 {"property": "C94", "status": "partial", "theorems": ["C94_refuted", "C94_any_file", "C94_partial", "C94_analytical"], "note": "REFUTED: files are written in place (opened, then written and closed; two steps of the model), so a worker killed in between leaves an unfinished file under the final name (C94_refuted, whole run of main, which ends normally). Proved: each file is as before, or whole and right for a completed task, or unfinished and then open by a begun task (C94_any_file, C94_analytical); without kills, after the run, never unfinished (C94_partial)."},
 {"property": "C95", "status": "partial", "theorems": ["C95_refuted", "C95_never_raised", "C95_reported"], "note": "REFUTED: main catches RuntimeError, of which BrokenProcessPool is a subclass, prints it and returns; time_it then prints that the execution is complete. Concrete run: a killed worker, no output file, normal end. main never raises a RuntimeError. What is missing for a positive result is the code's own behaviour; a failure message is printed only if there was a failure (C95_reported), and C96 shows that without one all is well."},
 {"property": "C96", "status": "proved", "theorems": ["C96_complete", "C96_analytical", "C96_real"], "note": "Composition of options, file lists, windows, reader, solver, writer and executor; at the start no task has a file open (settled_files). Example C93_case is a run that meets the hypotheses."},
 {"property": "C97", "status": "proved", "theorems": ["C94_own_file", "C94_partial"], "note": "C94_own_file for the first part, C94_partial for the second; Example C94_case meets the hypotheses of both."},
 {"property": "C98", "status": "proved", "theorems": ["C98_inexact_eigenvalues", "C98_negative_eigenvalues", "C98_failure"], "note": "Arithmetic other than the eigenvalues is exact (reals); eigenvalues are real numbers."},
 {"property": "C99", "status": "proved", "theorems": ["C99_accurate_away_from_conformal", "C09_nan_only_near_conformal"], "note": "binary64 semantics of Flocq/PrimFloat; the logarithm is any function accurate to 2^-40 on positive numbers, and such a function exists (C99_case_log)"},
 {"property": "C100", "status": "proved", "theorems": ["C100_euler_first_order"], "note": "Case: the unit circle in a rotation field."},
 {"property": "C101", "status": "proved", "theorems": ["C101_ab2_second_order"], "note": "Case: the unit circle in a rotation field."},
 {"property": "C102", "status": "partial", "theorems": ["C102_rk4_unsteady_refuted", "C102_rk4_first_order", "C102_rk4_fourth_order", "C102_rk4_linear"], "note": "REFUTED: all four slopes of a step use the field of the same snapshot, so in the unsteady flow v = t no constant bounds the error by C h^2: the method is first order only, and that much is proved for every Lipschitz flow (C102_rk4_first_order). In steady flows, where the snapshot is the field, the method is fourth order: C102_rk4_fourth_order for every field with a third order Taylor expansion along the trajectory, with a constant that depends only on the bounds; C102_rk4_linear for linear fields with an explicit constant."},
 {"property": "C103", "status": "proved", "theorems": ["C103_converges_2d", "C103_converges_3d"], "note": "Over the reals; 3D assumes the eigenvalue solver returns the roots of the characteristic polynomial. Case: the flow v = x."},
 {"property": "C104", "status": "partial", "theorems": ["C104_refuted", "C104_padded_partial", "C104_search_partial"], "note": "REFUTED: paths are sorted as strings, so velocities_10.mat comes before velocities_2.mat and the snapshots are integrated in the wrong order. Proved for numbers with the same number of digits (zero-padded)."},
 {"property": "C105", "status": "proved", "theorems": ["C105_ftle_of_the_flow_2d", "C105_ftle_of_the_flow_3d"], "note": "Over the reals; the interpolator returns the field exactly (samples_field); 3D assumes the eigenvalue solver returns the roots of the characteristic polynomial. Case: the flow v = x, every point."},
 {"property": "C106", "status": "partial", "theorems": ["C106_refuted", "C106_grid_2d_partial", "C106_grid_3d_partial", "C106_kernel_2d", "C106_kernel_3d"], "note": "REFUTED: a point strictly inside the grid but within rounding of its last line gets velocity 0, because its computed index coordinate rounds up to the last line (4 x 2 grid on the unit square, x = 1 - 2^-53, all samples 1). C106_grid_2d_partial and C106_grid_3d_partial: at index coordinates t with 0 <= t <= n - 1 - n/2^50 the object created, updated and queried in binary64 answers the exact interpolant within 2^-48 (nx + ny [+ nz]) M + 2^-1071, M bounding the samples. C106_kernel_2d and C106_kernel_3d: the compiled kernels, given index coordinates, are within 2^-48 M + 2^-1071 everywhere, and answer 0 off the lattice. Missing: points within n/2^50 of the last line, where the claim is false."},
 {"property": "C107", "status": "proved", "theorems": ["C107_jacobian_2d", "C107_jacobian_3d", "C107_ftle_2d"], "note": "Binary64 arithmetic of PrimFloat; separations between 2^-200 and 2^200 and coordinates up to 2^200. The logarithm is quantified over (accurate to 2^-40). The 3D FTLE goes through numpy's eigvals (C98) and is not bounded here."},
 {"property": "C108", "status": "proved", "theorems": ["C108_rounding", "C108_euler_trajectory", "C108_ab2_trajectory", "C108_rk4_trajectory"], "note": "Binary64 beside exact arithmetic, same history. RK4 additionally needs |h| L <= 1. The velocities may carry an error delta, e.g. that of C106."},
 {"property": "C109", "status": "proved", "theorems": ["C109_exact_images", "C109_flow"], "note": "Chains C108 (rounding of the integration), C107 (Jacobian and FTLE formula) and C100-C102 (error of the methods) through the whole solver run. Hypotheses: sizes within 2^800 / 2^199, singular values apart by a gap g with 256 E <= g s a. The period is the solver's (n-1)|h|, see C51 for the elapsed time n|h|. 3D runs are not covered: numpy's eigvals is an oracle."},
 {"property": "C110", "status": "proved", "theorems": ["C110_ftle_3x3", "C110_jacobian_ftle", "C110_exact_images", "C110_flow"], "note": "np.log and np.linalg.eigvals are oracles assumed accurate to 2^-40 (accurate_log, accurate_eigvals; both shown satisfiable). The eigenvalues are real in the model. Unlike the 2D formula (C51, C107) no gap between singular values is required."},
 {"property": "C111", "status": "proved", "theorems": ["C111_flow", "C111_exact_images"], "note": "np.log is an oracle assumed accurate to 2^-40 (accurate_log, shown satisfiable). The coordinate files must not all have the same name, because the grid interpolator fails on a static grid (C33, C83). The task is a worker with a fresh integrator and interpolator; MAT decoding is an oracle (the file system maps names to decoded arrays)."},
 {"property": "C112", "status": "proved", "theorems": ["C112_program"], "note": "Program-level statement built on C111 (each task), C60/C61 (executor), C41/C42 (windows), C72 and C73 (MAT and VTK files). Assumes at least two differently named coordinate files (C33, C83) and distinct stems of the velocity files (C96). The existence part uses C61_can_end."},
 {"property": "C113", "status": "proved", "theorems": ["C113_returns_2d", "C113_returns_3d", "C113_saves_2d", "C113_saves_3d"], "note": "Whole runs of AnalyticalSolver in binary64 on steady flows: rows in order for every schedule, each within the bound of C109/C110; with a writer one file per start time with distinct names for steps of at least 1.001e-6 and up to 2^36 fields. Unsteady flows are excluded because the code evaluates them at time 0 only (C46); below the step limit names can collide (C49). The log, the eigenvalue routine and Python's decimal formatting enter as accuracy hypotheses."},
 {"property": "C114", "status": "proved", "theorems": ["C114_flow", "C114_exact_images"], "note": "Whole file tasks on gridded 3D data in binary64, from the readers to the value handed to the writer. Assumes that log is accurate and that the eigenvalue routine is backward stable (accurate_eigvals), that the grid has as many lines in x as in y (C32) and at least two coordinate files with different names (C33, C83). Both examples instantiate every hypothesis, with a concrete 1025 x 1025 x 513 grid."},
 {"property": "C115", "status": "proved", "theorems": ["C115_program"], "note": "Whole runs of the program on gridded 3D data in binary64, for every interleaving of the workers. Assumes that log is accurate, that the eigenvalue routine is backward stable, that the flow grid has as many lines in x as in y (C32) and that there are at least two coordinate files (C33, C83). For structured VTK output the theorem says where the values are; unless px or py is 1 they are not at their seeds (C74)."},
 {"property": "C116", "status": "proved", "theorems": ["C116_flow", "C116_exact_images", "C116_nearest", "C116_means"], "note": "2D tasks on scattered data in binary64 with SciPy's cubic, linear and nearest interpolators. What SciPy computes is a hypothesis (scattered): in a region its answers are a function of one query point and reproduce the sampled velocity up to delta. C116_nearest derives this from the contract of nearest-neighbour search, C116_means from the contract that answers are weighted means of nearby samples. SciPy's search for a triangle may depend on the previous query for points on an edge; such round-off differences between calls are outside the hypothesis. log accurate and eigenvalue routine as in C112; for 2D no eigenvalue routine is called."},
 {"property": "C117", "status": "proved", "theorems": ["C117_program"], "note": "Whole runs of the program on scattered 2D data in binary64 with SciPy's cubic, linear and nearest interpolators, for every interleaving of the workers. What SciPy computes is a hypothesis (scatter_series), derived from contracts in C116_nearest and C116_means. Assumes that log is accurate. One coordinate file for all snapshots is covered."},
 {"property": "C118", "status": "partial", "theorems": ["C118_refuted", "C118_partial", "C118_analytical"], "note": "REFUTED: on scattered data in space the output file of the program depends on the contents of fresh memory, because the z velocity is never set (C36). Proved for every arithmetic, SciPy, input and schedule: runs with 'grid', with seeds in the plane, with seeds in space on a grid with three axes, and all runs of AnalyticalSolver do not depend on it."},
 {"property": "C119", "status": "proved", "theorems": ["C119_accepted", "C119_as_given", "C119_refused"], "note": "Every set of options given as strings; the splitting of argv into options and configargparse's file reading are not modelled. float() is an arbitrary function."},
 {"property": "C120", "status": "partial", "theorems": ["C120_stretched_refuted", "C120_equally_spaced_partial", "C120_only_the_box"], "note": "REFUTED: 'grid' misplaces samples on every rectangular grid with a line off the equally spaced position. Proved: right placement for equally spaced lines; and for every interpolator with a grid shape, in 2-D and 3-D and after any history, the answers depend on the points only through their bounding box."},
 {"property": "C121", "status": "proved", "theorems": ["C121_units_2d", "C121_units_3d", "C121_file_task", "C121_program"], "note": "For any interpolators that sample a field and any sources that present the fields; the 3D theorem holds for every np.linalg.eigvals, because both runs hand it the same matrices. Exact reals. C121_file_task: a whole task of the file workflow with its output file, whatever its input files hold, when only the unit of time changes. C121_program: the same for the whole command line program under every schedule and with killed processes, given that SciPy's answers scale with the samples."},
 {"property": "C122", "status": "partial", "theorems": ["C122_backward_refuted", "C122_forward_partial", "C122_files_partial", "C122_backward_partial"], "note": "REFUTED: backward in time, appending a number of snapshots that the number of particle files does not divide gives the same window (same velocity files, same output name) other seeds. Forward in time it holds, for the tasks and for the files of whole program runs under every schedule; backward it holds when the other lists grow along or their lengths divide the number of new snapshots."},
 {"property": "C123", "status": "proved", "theorems": ["C123_seeds_2d", "C123_seeds_3d", "C123_positions_2d", "C123_positions_3d", "C123_file_2d", "C123_image_2d", "C123_image_3d"], "note": "The array operations of the recipe cells are modelled with their shapes and orders. Seeds, displacements and images over the reals for every grid; the layout of the positions and the equality of file and memory for every arithmetic. The images hold for every schedule of the worker processes and every integrator."},
 {"property": "C124", "status": "proved", "theorems": ["C124_same_files", "C124_any_memory", "C124_can_repeat", "C124_analytical", "C124_analytical_can_repeat"], "note": "Histories of any number of runs, each stopped in any reachable state of the processes; a file that was being written is then left as something unspecified. Every arithmetic. The existence of an undisturbed run uses excluded middle; the other theorems use no axioms."},
 {"property": "C125", "status": "partial", "theorems": ["C125_refuted", "C125_partial", "C125_others_partial"], "note": "REFUTED: no run looks at what is already there: every file is opened for writing again, so a repeated run that is stopped while it writes destroys a finished file. Proved instead: a file whose task the repeated run has not begun stays as it was; one whose task it has completed without failure is right; only in between it can be destroyed; files that are not asked for never change."},
 {"property": "C126", "status": "proved", "theorems": ["C126_axes_2d", "C126_axes_3d", "C126_exchange_2d", "C126_commutative"], "note": "Two whole runs are compared over the exact reals for every choice of axes; in 3D np.linalg.eigvals need only return the eigenvalues of a symmetric matrix in some order. The exchange of the two plane axes is proved for every arithmetic with commutative sums and products, binary64 among them. Reversal in binary64 is not claimed: it can change the sign of a zero."},
 {"property": "C127", "status": "partial", "theorems": ["C127_refuted", "C127_partial", "C127_3d_partial", "C127_affine_partial", "C127_affine_3d_partial"], "note": "REFUTED: with RK4, whose later stages look at the snapshot of the start of the step; a jet gives 0 for an observer at rest and ln(1 + sqrt 2) for one who moves across it. Proved for Euler and AB2 in 2D and 3D, and for all three methods when every snapshot has a constant gradient."},
 {"property": "C128", "status": "partial", "theorems": ["C128_refuted", "C128_partial", "C128_read_partial", "C128_script_partial"], "note": "REFUTED: names are sorted as text, so with the notebook's four digits 10000 files or more are listed out of order. C128_partial and C128_script_partial: the list is in order exactly when the number of files is below 10^width, for every directory order and every other entry. C128_read_partial: pyFTLE then reads exactly these paths in this order."},
 {"property": "C129", "status": "partial", "theorems": ["C129_refuted", "C129_blind_partial", "C129_partial"], "note": "REFUTED: the script looks for \"velocities\" and the notebook names its files \"velocity0001.mat\" and so on, so the script lists none of them (C129_blind_partial: for every number of files and every directory). C129_partial: for names that begin with the script's words, both make the same three lists."},
 {"property": "C130", "status": "partial", "theorems": ["C130_refuted", "C130_real_partial", "C130_exact_partial", "C130_decimal_partial"], "note": "REFUTED: with four snapshots, step 0.1 and period 0.3 the run ends without an error and leaves two files in place of one. Proved: the formula in exact arithmetic, and in binary64 for representable numbers; for decimal numbers there are N - k or N - k + 1 files and no other number."},
 {"property": "C131", "status": "proved", "theorems": ["C131_reversed_program"], "note": "Exact arithmetic over the reals. Bit for bit it cannot hold: the signs of zeros differ (C25_binary64_bitwise_refuted)."},
 {"property": "C132", "status": "proved", "theorems": ["C132_window"], "note": "Whole program, every arithmetic, schedule and SciPy. The condition on fresh memory is that of C118 and is needed for one of the runs only. Both runs report no failure; base names in a list are different (C48)."},
 {"property": "C133", "status": "proved", "theorems": ["C133_part"], "note": "Follows from the same lemma as C132. The lists of coordinate and particle files have one entry or one for each velocity file; lists of another length are cycled from the start of the part, so that seeds can change (see C122_backward_refuted)."},
 {"property": "C134", "status": "proved", "theorems": ["C134_program"], "note": "Lines are described by `says` in SpecConfigFile.v; the outcome of the whole program is compared with the one on the merged options. C134_case: the config.yaml of the repository."},
 {"property": "C135", "status": "partial", "theorems": ["C135_scalar_refuted", "C135_sequence_refuted", "C135_scalar_partial"], "note": "REFUTED: `experiment_name: low ; high` is cut at the semicolon, and a shape written as a YAML sequence ends the program. Plain scalars that begin with a letter and have no semicolon after a blank are read as in YAML."},
 {"property": "C136", "status": "proved", "theorems": ["C136_misspelt", "C136_missing"], "note": "Unique abbreviations of options, which argparse accepts, are excluded in the statement."},
 {"property": "C137", "status": "proved", "theorems": ["C137_strain_2d", "C137_strain_3d"], "note": "Exact reals, all three integrators, fields that change from snapshot to snapshot; the bound counts n steps over (n - 1) |h|, as the program does (see C51). PropStrain.v."},
 {"property": "C138", "status": "partial", "theorems": ["C138_refuted", "C138_2d_partial", "C138_3d_partial"], "note": "REFUTED: in the flow v = -x two Euler steps of 1 take all four particles of a seed to the origin and the value is minus infinity. Proved when the steps are short for the strain, |h| L <= 1/5: every value is a number between -5 L n/(n-1) and the bound of C137."},
 {"property": "C139", "status": "partial", "theorems": ["C139_refuted", "C139_euler_partial", "C139_rk4_partial", "C139_rk4_3d_partial", "C139_euler_3d_partial", "C139_ab2_partial", "C139_ab2_small_partial", "C139_ab2_3d_partial"], "note": "REFUTED: two Euler steps of 1 at one radian per unit of time give ln 2. In 2-D, for every seed, number of snapshots and step, the exact value is proved for Euler (positive, at most n/(n-1) w^2 |h|/2) and for RK4 steps of at most one radian (negative, above -n/(n-1) (wh)^6/(142 |h|)); for AB2 a positive lower bound, ln(1+(wh)^2)/(2(n-1)|h|), and with steps of at most half a radian the upper bound w^2 |h|/(2(n-1)) + 2 w^4 |h|^3. In 3-D, for every axis: with RK4 steps of at most sqrt 8 radians all values are zero, with Euler the value is that of 2-D, and with AB2 the bounds are those of 2-D. PropRotation.v."},
 {"property": "C140", "status": "partial", "theorems": ["C140_refuted", "C140_euler_partial", "C140_euler_3d_partial", "C140_ab2_partial", "C140_saddle_partial"], "note": "REFUTED: two RK4 steps of 1 in a rotation give ln (569/576) < 0. Proved in linear flows of zero trace, for steps of any size: with Euler in all of them, in 2-D and 3-D; in 2-D with AB2 in all of them, and with RK4 where the determinant of the gradient is not positive (strain prevails over rotation). PropRotation.v."},
 {"property": "C141", "status": "proved", "theorems": ["C141_options", "C141_order"], "note": "For the parser of CPython 3.10/3.11's argparse restricted to this program's options; the model was compared with the argparse of the sandbox on 600 random argument lists. Together with a configuration file abbreviated options are outside these statements. PropArgs.v."},
 {"property": "C142", "status": "partial", "theorems": ["C142_refuted", "C142_decimal_partial"], "note": "REFUTED: --snapshot_timestep -1e-3 is taken for an unknown option and the program exits, wherever the two arguments stand. Proved for -12, -1.5 and -.5, and for every value written --snapshot_timestep=value."},
 {"property": "C143", "status": "proved", "theorems": ["C143_all_used", "C143_misspelt"], "note": "Unique beginnings of option names are accepted, as argparse does; the statement says so."},
 {"property": "C144", "status": "partial", "theorems": ["C144_refuted", "C144_uncommented_partial"], "note": "REFUTED: in the README a backslash is followed by two blanks and a comment, so the shell passes a single blank as the last argument and argparse refuses it. Proved that the command without the comments is read as shown."},
 {"property": "C145", "status": "proved", "theorems": ["C145_as_arguments"], "note": "Composes C134 and C141. C145_case: the config.yaml of the repository and the arguments it stands for."},
 {"property": "C146", "status": "proved", "theorems": ["C146_2d", "C146_3d", "C146_value"], "note": "Over the reals. The divisor (n-1)|h| instead of n|h| is the defect recorded under C51. C146_case: two steps in the flow (y, 0) give ln(1 + sqrt 2) with each method."},
 {"property": "C147", "status": "partial", "theorems": ["C147_refuted", "C147_euler_partial", "C147_rk4_partial", "C147_ab2_partial", "C147_euler_3d_partial", "C147_rk4_3d_partial", "C147_ab2_3d_partial"], "note": "REFUTED: two RK4 steps of size 1 with k = 1 give more than 1, because the divisor is one step too short (C51) and the methods are not exact. Proved for steps of any size and sign: the value is at most n/(n-1)|k| and below it by at most n/(n-1) times k^2|h|/2 (Euler, AB2) or |k|^5 h^4/120 (RK4). The same in 3-D, with k the largest rate of stretching, if no step exceeds two decay times of a contracting direction (one with AB2). Over the reals."}
]}
