# Print Assumptions of the theorems in MANIFEST.json

Generated by `tools/assumptions.py`.

## Closed under the global context

- `PropApi.C67_stack_partial`
- `PropApi.C67_points`
- `PropApi.C67_single`
- `PropApi.C67_none`
- `PropArgs.C141_options`
- `PropArgs.C141_order`
- `PropArgs.C142_refuted`
- `PropArgs.C142_decimal_partial`
- `PropArgs.C143_all_used`
- `PropArgs.C143_misspelt`
- `PropArgs.C144_refuted`
- `PropArgs.C144_uncommented_partial`
- `PropArgs.C145_as_arguments`
- `PropAxes.C126_exchange_2d`
- `PropBatches.C41_windows`
- `PropBatches.C42_backward_refuted`
- `PropBatches.C42_backward_partial`
- `PropBatches.C42_backward_exact`
- `PropBatches.C46_only_time_zero`
- `PropBatches.C46_steady_partial`
- `PropBatches.C47_times`
- `PropBatches.C48_same_name_refuted`
- `PropBatches.C48_distinct_names_partial`
- `PropCommand.C119_accepted`
- `PropCommand.C119_as_given`
- `PropCommand.C119_refused`
- `PropConfig.C80_accepts`
- `PropConfig.C80_rejects`
- `PropConfig.C80_refuted`
- `PropConfig.C80_shape_partial`
- `PropConfig.C81_needs_options`
- `PropConfig.C81_selected`
- `PropConfig.C81_interpolator`
- `PropConfig.C81_created`
- `PropConfig.C81_processes_partial`
- `PropConfig.C82_duration`
- `PropConfig.C82_time_it`
- `PropConfigFile.C134_program`
- `PropConfigFile.C135_scalar_refuted`
- `PropConfigFile.C135_sequence_refuted`
- `PropConfigFile.C135_scalar_partial`
- `PropConfigFile.C136_misspelt`
- `PropConfigFile.C136_missing`
- `PropExecutor.C43_no_output`
- `PropExecutor.C60_order`
- `PropExecutor.C60_returns`
- `PropExecutor.C60_effects`
- `PropExecutor.C61_never_returns`
- `PropExecutor.C61_raises`
- `PropExecutor.C61_terminates`
- `PropExecutor.C61_no_deadlock`
- `PropExecutor.C62_runtime_error_refuted`
- `PropExecutor.C62_runtime_error_partial`
- `PropExecutor.C63_no_further_task_refuted`
- `PropExecutor.C63_exit_waits_refuted`
- `PropExecutor.C63_cancelled_partial`
- `PropExecutor.C63_begun_completed`
- `PropExecutor.C63_completed_or_cancelled`
- `PropExecutor.C63_cancelled_never`
- `PropExecutor.C64_monitor`
- `PropExecutor.C64_complete`
- `PropExecutor.C64_bars`
- `PropExecutor.C64_run`
- `PropExecutor.C65_monitor_refuted`
- `PropExecutor.C65_few_partial`
- `PropExecutor.C65_last_partial`
- `PropExecutor.C66_stopped_refuted`
- `PropExecutor.C66_exit_refuted`
- `PropExecutor.C66_death_refuted`
- `PropExecutor.C66_stopped_partial`
- `PropFileRun.C45_own_snapshot`
- `PropFileRun.C83_grid_static_refuted`
- `PropFileUtils.C77_refuted`
- `PropFileUtils.C77_round_trip_partial`
- `PropFileUtils.C77_comma`
- `PropFileUtils.C77_empty`
- `PropFileUtils.C78_refuted`
- `PropFileUtils.C78_entries`
- `PropFileUtils.C78_order`
- `PropFileUtils.C78_files_partial`
- `PropFileUtils.C79_refuted`
- `PropFileUtils.C79_particle`
- `PropFileUtils.C79_warnings_partial`
- `PropFileUtils.C79_lists`
- `PropGrow.C122_backward_refuted`
- `PropGrow.C122_forward_partial`
- `PropGrow.C122_files_partial`
- `PropGrow.C122_backward_partial`
- `PropHistory.C56_any_history_partial`
- `PropIntegrate.C16_geometry_2d`
- `PropIntegrate.C16_geometry_3d`
- `PropIntegrate.C18_euler_step`
- `PropIntegrate.C18_ab2_first_step`
- `PropIntegrate.C18_ab2_next_step`
- `PropIntegrate.C18_rk4_step`
- `PropIntegrate.C18_history`
- `PropIntegrate.C19_no_leak`
- `PropIntegrate.C20_ab2_size_change`
- `PropIntegrate.C21_particles_independent`
- `PropIntegrate.C24_rk4_times_exact`
- `PropIntegrate.C24_rk4_times_partial`
- `PropIntegrate.C26_create_integrator`
- `PropInterpolate.C27_kernel_2d_memory_safe`
- `PropInterpolate.C27_kernel_3d_memory_safe_partial`
- `PropInterpolate.C27_kernel_3d_overflow_refuted`
- `PropInterpolate.C27_unfit_coordinates`
- `PropInterpolate.C27_shapes_2d`
- `PropInterpolate.C27_shapes_3d`
- `PropInterpolate.C34_structured_velocity_only_3d_partial`
- `PropInterpolate.C34_spline_updates_ignored`
- `PropInterpolate.C35_unstructured_velocity_only`
- `PropInterpolate.C36_third_component_is_memory`
- `PropInterpolate.C36_three_points`
- `PropInterpolate.C37_three_points_2d_never`
- `PropInterpolate.C37_other_counts_2d`
- `PropInterpolate.C38_grid_queries_read_only`
- `PropInterpolate.C38_other_queries_read_only`
- `PropInterpolate.C38_grid_pointwise_2d`
- `PropInterpolate.C38_grid_pointwise_3d`
- `PropInterpolate.C39_no_points_partial`
- `PropInterpolate.C40_interpolator_factory`
- `PropInterpolate.C40_grid_methods`
- `PropInterpolate.C87_cubic_2d`
- `PropInterpolate.C87_linear_2d`
- `PropInterpolate.C87_nearest_2d`
- `PropInterpolate.C87_linear_3d`
- `PropInterpolate.C87_nearest_3d`
- `PropInterpolate.C87_cubic_rejects_3d`
- `PropMem.C46_fields_equal`
- `PropMem.C118_partial`
- `PropMem.C118_analytical`
- `PropNotebook.C123_positions_2d`
- `PropNotebook.C123_positions_3d`
- `PropNotebook.C123_file_2d`
- `PropNotebookFiles.C128_refuted`
- `PropNotebookFiles.C128_partial`
- `PropNotebookFiles.C128_read_partial`
- `PropNotebookFiles.C128_script_partial`
- `PropNotebookFiles.C129_refuted`
- `PropNotebookFiles.C129_blind_partial`
- `PropNotebookFiles.C129_partial`
- `PropNumbered.C104_refuted`
- `PropNumbered.C104_padded_partial`
- `PropNumbered.C104_search_partial`
- `PropParticles.C13_layout_2d`
- `PropParticles.C13_layout_3d`
- `PropParticles.C13_every_array_is_a_layout_2d`
- `PropParticles.C13_every_array_is_a_layout_3d`
- `PropParticles.C15_accept_2d`
- `PropParticles.C15_accept_3d`
- `PropParticles.C17_front_back_2d_exact`
- `PropProgram.C82_program`
- `PropProgram.C93_partial`
- `PropProgram.C93_one_of_them`
- `PropProgram.C93_analytical_partial`
- `PropProgram.C94_any_file`
- `PropProgram.C94_partial`
- `PropProgram.C94_analytical`
- `PropProgram.C95_never_raised`
- `PropProgram.C95_reported`
- `PropProgram.C96_complete`
- `PropProgram.C96_analytical`
- `PropProgram.C94_own_file`
- `PropReaders.C68_velocity`
- `PropReaders.C68_coordinate`
- `PropReaders.C70_seeds_2d`
- `PropReaders.C70_seeds_3d`
- `PropReaders.C71_accepted_exact`
- `PropReaders.C71_accepted_six_exact`
- `PropReaders.C71_missing_key_partial`
- `PropReaders.C71_columns_four_partial`
- `PropReaders.C71_columns_six_partial`
- `PropRepeat.C124_same_files`
- `PropRepeat.C124_any_memory`
- `PropRepeat.C124_analytical`
- `PropRepeat.C125_partial`
- `PropRepeat.C125_others_partial`
- `PropSolver.C50_one_step_per_snapshot`
- `PropSolver.C52_single_snapshot_fails`
- `PropSolver.C52_zero_division_2d`
- `PropSolver.C52_zero_division_3d`
- `PropSolver.C53_progress`
- `PropSolver.C53_success`
- `PropSolver.C54_done_means_integrated`
- `PropSolver.C55_output`
- `PropSolver.C56_rerun_files_partial`
- `PropSolver.C57_local_2d`
- `PropSolver.C57_local_3d`
- `PropWriters.C72_mat_grid`
- `PropWriters.C72_mat_points`
- `PropWriters.C73_vtk_grid_2d`
- `PropWriters.C73_vtk_points`
- `PropWriters.C74_vtk_grid_3d_refuted`
- `PropWriters.C74_vtk_grid_3d_partial`
- `PropWriters.C74_vtk_grid_3d_exact`
- `PropWriters.C75_wrong_size_partial`
- `PropWriters.C75_wrong_rank_partial`
- `PropWriters.C75_empty_shape_refuted`
- `PropWriters.C75_reused_refuted`
- `PropWriters.C76_reuse_refuted`
- `PropWriters.C76_reuse_partial`
- `PropWriters.C89_formats_2d_refuted`
- `PropWriters.C89_formats_3d_partial`
- `PropWriters.C90_flattened_refuted`
- `PropWriters.C91_create_writer`
- `PropWriters.C91_other_formats`
- `PropWriters.C92_one_file`
- `PropWriters.C92_file_name`

## Axioms:

* `Classical_Prop.classic`

- `PropCount.C83_program_refuted`
- `PropExecutor.C61_can_end`
- `PropRepeat.C124_can_repeat`
- `PropRepeat.C124_analytical_can_repeat`

## Axioms:

* `FunctionalExtensionality.functional_extensionality_dep`

- `PropParts.C132_window`
- `PropParts.C133_part`

## Axioms:

* `ClassicalDedekindReals.sig_forall_dec`
* `FunctionalExtensionality.functional_extensionality_dep`

- `PropFtle.C03_same_spectrum_3d`
- `PropReaders.C69_column_major_refuted`

## Axioms:

* `ClassicalDedekindReals.sig_forall_dec`
* `ClassicalDedekindReals.sig_not_dec`
* `FunctionalExtensionality.functional_extensionality_dep`

- `PropFtle.C05_norm_exists`
- `PropFtle.C05_norm_unique`
- `PropFtle.C06_norm_exists`
- `PropFtle.C06_norm_unique`

## Axioms:

* `ClassicalDedekindReals.sig_forall_dec`
* `ClassicalDedekindReals.sig_not_dec`
* `Classical_Prop.classic`
* `FunctionalExtensionality.functional_extensionality_dep`

- `PropAxes.C126_axes_2d`
- `PropAxes.C126_axes_3d`
- `PropBatches.C41_window_length`
- `PropBatches.C44_real`
- `PropBatches.C46_times_refuted`
- `PropBatches.C47_times_real`
- `PropBatches.C49_small_timestep_refuted`
- `PropBatches.C49_distinct_partial`
- `PropBox.C120_stretched_refuted`
- `PropBox.C120_equally_spaced_partial`
- `PropBox.C120_only_the_box`
- `PropConfig.C81_refuted`
- `PropConverge.C103_converges_2d`
- `PropConverge.C103_converges_3d`
- `PropCount.C130_real_partial`
- `PropFrame.C127_refuted`
- `PropFrame.C127_partial`
- `PropFrame.C127_3d_partial`
- `PropFrame.C127_affine_partial`
- `PropFrame.C127_affine_3d_partial`
- `PropFtle.C01_cauchy_green_2d`
- `PropFtle.C02_cauchy_green_3d_refuted`
- `PropFtle.C02_cauchy_green_3d_partial`
- `PropFtle.C02_cauchy_green_3d_exact`
- `PropFtle.C03_max_eigenvalue_3d`
- `PropFtle.C04_max_eigenvalue_2d`
- `PropFtle.C05_ftle_2d`
- `PropFtle.C05_ftle_2d_zero_period`
- `PropFtle.C06_ftle_3d`
- `PropFtle.C06_ftle_3d_zero_period`
- `PropFtle.C07_nonneg_2d`
- `PropFtle.C07_nonneg_3d`
- `PropFtle.C07_isometry_2d`
- `PropFtle.C07_isometry_3d`
- `PropFtle.C08_frame_2d`
- `PropFtle.C08_frame_3d`
- `PropFtle.C08_scaling_2d`
- `PropFtle.C08_scaling_3d`
- `PropFtle.C84_documented_formula_refuted`
- `PropFtle.C84_documented_formula_partial`
- `PropFtle.C84_sign_2d`
- `PropFtle.C84_sign_3d`
- `PropInexact.C98_inexact_eigenvalues`
- `PropInexact.C98_negative_eigenvalues`
- `PropInexact.C98_failure`
- `PropIntegrate.C22_uniform_flow`
- `PropIntegrate.C23_rk4_linear`
- `PropIntegrate.C23_euler_linear`
- `PropIntegrate.C24_rk4_times_refuted`
- `PropIntegrate.C25_time_reversal`
- `PropInterpolate.C28_bilinear`
- `PropInterpolate.C28_trilinear`
- `PropInterpolate.C29_zero_outside_2d`
- `PropInterpolate.C29_zero_outside_3d`
- `PropInterpolate.C30_last_line_refuted`
- `PropInterpolate.C30_last_lines_are_zero`
- `PropInterpolate.C31_grid_2d`
- `PropInterpolate.C32_grid_3d_partial`
- `PropInterpolate.C32_grid_3d_refuted`
- `PropInterpolate.C33_velocity_only_2d_refuted`
- `PropInterpolate.C33_velocity_only_3d_refuted`
- `PropInterpolate.C34_structured_velocity_only_2d_refuted`
- `PropInterpolate.C36_third_component_refuted`
- `PropInterpolate.C37_three_points_2d_refuted`
- `PropInterpolate.C38_wrong_query_refuted`
- `PropInterpolate.C39_grid_accepts_no_points_refuted`
- `PropInterpolate.C39_failed_update_answers_refuted`
- `PropInterpolate.C86_structured_2d_placement`
- `PropInterpolate.C86_structured_2d_disagrees_refuted`
- `PropInterpolate.C88_structured_3d_placement`
- `PropLimit.C105_ftle_of_the_flow_2d`
- `PropLimit.C105_ftle_of_the_flow_3d`
- `PropNotebook.C123_seeds_2d`
- `PropNotebook.C123_seeds_3d`
- `PropNotebook.C123_image_2d`
- `PropNotebook.C123_image_3d`
- `PropOrder.C100_euler_first_order`
- `PropOrder.C101_ab2_second_order`
- `PropOrder.C102_rk4_unsteady_refuted`
- `PropOrder.C102_rk4_first_order`
- `PropOrder.C102_rk4_fourth_order`
- `PropOrder.C102_rk4_linear`
- `PropParticles.C11_jacobian_affine_2d`
- `PropParticles.C11_jacobian_affine_3d`
- `PropParticles.C12_jacobian_error_2d`
- `PropParticles.C12_jacobian_error_3d`
- `PropParticles.C14_documented_layout_refuted`
- `PropParticles.C14_consecutive_groups_refuted`
- `PropParticles.C17_front_back_2d_refuted`
- `PropParticles.C85_rotated_stencil_refuted`
- `PropProgram.C93_real_partial`
- `PropProgram.C96_real`
- `PropReaders.C71_missing_back_refuted`
- `PropReaders.C71_lengths_refuted`
- `PropReverseRun.C121_file_task`
- `PropReverseRun.C131_reversed_program`
- `PropRotation.C139_refuted`
- `PropRotation.C139_euler_partial`
- `PropRotation.C139_rk4_partial`
- `PropRotation.C139_rk4_3d_partial`
- `PropRotation.C139_euler_3d_partial`
- `PropRotation.C139_ab2_3d_partial`
- `PropRotation.C139_ab2_partial`
- `PropRotation.C139_ab2_small_partial`
- `PropRotation.C140_refuted`
- `PropRotation.C140_euler_partial`
- `PropRotation.C140_euler_3d_partial`
- `PropRotation.C140_ab2_partial`
- `PropRotation.C140_saddle_partial`
- `PropShear.C146_2d`
- `PropShear.C146_3d`
- `PropShear.C146_value`
- `PropSolver.C51_elapsed_time_refuted`
- `PropSolver.C51_actual_divisor`
- `PropSolver.C51_factor_2d`
- `PropSolver.C51_factor_3d`
- `PropSolver.C52_zero_period_real`
- `PropSolver.C54_done_means_result_refuted`
- `PropSolver.C56_rerun_analytical_refuted`
- `PropSolver.C56_rerun_ab2_refuted`
- `PropSolver.C58_uniform_2d`
- `PropSolver.C58_uniform_3d`
- `PropSolver.C59_linear_2d`
- `PropSolver.C59_linear_3d`
- `PropStrain.C137_strain_2d`
- `PropStrain.C137_strain_3d`
- `PropStrain.C138_refuted`
- `PropStrain.C138_2d_partial`
- `PropStrain.C138_3d_partial`
- `PropStretch.C147_refuted`
- `PropStretch.C147_euler_partial`
- `PropStretch.C147_rk4_partial`
- `PropStretch.C147_ab2_partial`
- `PropStretch.C147_euler_3d_partial`
- `PropStretch.C147_rk4_3d_partial`
- `PropStretch.C147_ab2_3d_partial`
- `PropUnits.C121_units_2d`
- `PropUnits.C121_units_3d`
- `PropUnitsProgram.C121_program`

## Axioms:

* `ClassicalDedekindReals.sig_forall_dec`
* `ClassicalDedekindReals.sig_not_dec`
* `FunctionalExtensionality.functional_extensionality_dep`
* `PrimFloat.abs`
* `PrimFloat.div`
* `PrimFloat.eqb`
* `PrimFloat.float`
* `PrimFloat.frshiftexp`
* `PrimFloat.ltb`
* `PrimFloat.normfr_mantissa`
* `PrimInt63.eqb`
* `PrimInt63.int`
* `PrimInt63.land`
* `PrimInt63.lsr`

- `PropScatter.C116_nearest`
- `PropScatter.C116_means`

## Axioms:

* `PrimFloat.abs`
* `PrimFloat.add`
* `PrimFloat.div`
* `PrimFloat.eqb`
* `PrimFloat.float`
* `PrimFloat.frshiftexp`
* `PrimFloat.ldshiftexp`
* `PrimFloat.ltb`
* `PrimFloat.mul`
* `PrimFloat.normfr_mantissa`
* `PrimFloat.of_uint63`
* `PrimFloat.opp`
* `PrimFloat.sqrt`
* `PrimFloat.sub`
* `PrimInt63.eqb`
* `PrimInt63.int`
* `PrimInt63.land`
* `PrimInt63.lor`
* `PrimInt63.lsl`
* `PrimInt63.lsr`
* `PrimInt63.sub`

- `PropApi.C67_refuted`
- `PropProgram.C93_refuted`
- `PropProgram.C93_overlap`
- `PropProgram.C94_refuted`
- `PropProgram.C95_refuted`
- `PropRepeat.C125_refuted`
- `PropReverse.C25_binary64_bitwise_refuted`

## Axioms:

* `Classical_Prop.classic`
* `PrimFloat.abs`
* `PrimFloat.add`
* `PrimFloat.div`
* `PrimFloat.eqb`
* `PrimFloat.float`
* `PrimFloat.frshiftexp`
* `PrimFloat.ldshiftexp`
* `PrimFloat.ltb`
* `PrimFloat.mul`
* `PrimFloat.normfr_mantissa`
* `PrimFloat.of_uint63`
* `PrimFloat.opp`
* `PrimFloat.sqrt`
* `PrimFloat.sub`
* `PrimInt63.eqb`
* `PrimInt63.int`
* `PrimInt63.land`
* `PrimInt63.lor`
* `PrimInt63.lsl`
* `PrimInt63.lsr`
* `PrimInt63.sub`

- `PropNotebookRun.C83_notebook_refuted`

## Axioms:

* `FloatAxioms.SF2Prim_Prim2SF`
* `FloatAxioms.mul_spec`
* `PrimFloat.abs`
* `PrimFloat.add`
* `PrimFloat.div`
* `PrimFloat.eqb`
* `PrimFloat.float`
* `PrimFloat.frshiftexp`
* `PrimFloat.ldshiftexp`
* `PrimFloat.ltb`
* `PrimFloat.mul`
* `PrimFloat.normfr_mantissa`
* `PrimFloat.of_uint63`
* `PrimFloat.opp`
* `PrimFloat.sqrt`
* `PrimFloat.sub`
* `PrimInt63.eqb`
* `PrimInt63.int`
* `PrimInt63.land`
* `PrimInt63.lor`
* `PrimInt63.lsl`
* `PrimInt63.lsr`
* `PrimInt63.sub`

- `PropFtle.C09_finite_refuted`
- `PropFtle.C10_bitwise_symmetric`

## Axioms:

* `FloatAxioms.abs_spec`
* `FloatAxioms.eqb_spec`
* `FloatAxioms.mul_spec`
* `PrimFloat.abs`
* `PrimFloat.add`
* `PrimFloat.div`
* `PrimFloat.eqb`
* `PrimFloat.float`
* `PrimFloat.frshiftexp`
* `PrimFloat.ldshiftexp`
* `PrimFloat.ltb`
* `PrimFloat.mul`
* `PrimFloat.normfr_mantissa`
* `PrimFloat.of_uint63`
* `PrimFloat.opp`
* `PrimFloat.sqrt`
* `PrimFloat.sub`
* `PrimInt63.eqb`
* `PrimInt63.int`
* `PrimInt63.land`
* `PrimInt63.lor`
* `PrimInt63.lsl`
* `PrimInt63.lsr`
* `PrimInt63.sub`

- `PropSolver.C52_zero_period_binary64`

## Axioms:

* `ClassicalDedekindReals.sig_forall_dec`
* `ClassicalDedekindReals.sig_not_dec`
* `Classical_Prop.classic`
* `FunctionalExtensionality.functional_extensionality_dep`
* `PrimFloat.abs`
* `PrimFloat.add`
* `PrimFloat.div`
* `PrimFloat.eqb`
* `PrimFloat.float`
* `PrimFloat.frshiftexp`
* `PrimFloat.ldshiftexp`
* `PrimFloat.ltb`
* `PrimFloat.mul`
* `PrimFloat.normfr_mantissa`
* `PrimFloat.of_uint63`
* `PrimFloat.opp`
* `PrimFloat.sqrt`
* `PrimFloat.sub`
* `PrimInt63.eqb`
* `PrimInt63.int`
* `PrimInt63.land`
* `PrimInt63.lor`
* `PrimInt63.lsl`
* `PrimInt63.lsr`
* `PrimInt63.sub`

- `PropBatches.C44_decimal_refuted`
- `PropCount.C130_refuted`

## Axioms:

* `ClassicalDedekindReals.sig_forall_dec`
* `ClassicalDedekindReals.sig_not_dec`
* `Classical_Prop.classic`
* `FloatAxioms.Prim2SF_SF2Prim`
* `FloatAxioms.Prim2SF_valid`
* `FloatAxioms.SF2Prim_Prim2SF`
* `FunctionalExtensionality.functional_extensionality_dep`
* `PrimFloat.abs`
* `PrimFloat.add`
* `PrimFloat.div`
* `PrimFloat.eqb`
* `PrimFloat.float`
* `PrimFloat.frshiftexp`
* `PrimFloat.ldshiftexp`
* `PrimFloat.ltb`
* `PrimFloat.mul`
* `PrimFloat.normfr_mantissa`
* `PrimFloat.of_uint63`
* `PrimFloat.opp`
* `PrimFloat.sqrt`
* `PrimFloat.sub`
* `PrimInt63.eqb`
* `PrimInt63.int`
* `PrimInt63.land`
* `PrimInt63.lor`
* `PrimInt63.lsl`
* `PrimInt63.lsr`
* `PrimInt63.sub`

- `PropFloatGrid.C106_refuted`

## Axioms:

* `ClassicalDedekindReals.sig_forall_dec`
* `ClassicalDedekindReals.sig_not_dec`
* `Classical_Prop.classic`
* `FloatAxioms.SF2Prim_Prim2SF`
* `FloatAxioms.add_spec`
* `FloatAxioms.mul_spec`
* `FunctionalExtensionality.functional_extensionality_dep`
* `PrimFloat.abs`
* `PrimFloat.add`
* `PrimFloat.div`
* `PrimFloat.eqb`
* `PrimFloat.float`
* `PrimFloat.frshiftexp`
* `PrimFloat.ldshiftexp`
* `PrimFloat.ltb`
* `PrimFloat.mul`
* `PrimFloat.normfr_mantissa`
* `PrimFloat.of_uint63`
* `PrimFloat.opp`
* `PrimFloat.sqrt`
* `PrimFloat.sub`
* `PrimInt63.eqb`
* `PrimInt63.int`
* `PrimInt63.land`
* `PrimInt63.lor`
* `PrimInt63.lsl`
* `PrimInt63.lsr`
* `PrimInt63.sub`

- `PropAxes.C126_commutative`

## Axioms:

* `FloatAxioms.SF2Prim_Prim2SF`
* `FloatAxioms.add_spec`
* `FloatAxioms.div_spec`
* `FloatAxioms.eqb_spec`
* `FloatAxioms.mul_spec`
* `FloatAxioms.opp_spec`
* `FloatAxioms.sub_spec`
* `PrimFloat.abs`
* `PrimFloat.add`
* `PrimFloat.div`
* `PrimFloat.eqb`
* `PrimFloat.float`
* `PrimFloat.frshiftexp`
* `PrimFloat.ldshiftexp`
* `PrimFloat.ltb`
* `PrimFloat.mul`
* `PrimFloat.normfr_mantissa`
* `PrimFloat.of_uint63`
* `PrimFloat.opp`
* `PrimFloat.sqrt`
* `PrimFloat.sub`
* `PrimInt63.eqb`
* `PrimInt63.int`
* `PrimInt63.land`
* `PrimInt63.lor`
* `PrimInt63.lsl`
* `PrimInt63.lsr`
* `PrimInt63.sub`

- `PropReverse.C25_binary64`

## Axioms:

* `ClassicalDedekindReals.sig_forall_dec`
* `ClassicalDedekindReals.sig_not_dec`
* `Classical_Prop.classic`
* `FloatAxioms.Prim2SF_SF2Prim`
* `FloatAxioms.Prim2SF_valid`
* `FloatAxioms.SF2Prim_Prim2SF`
* `FloatAxioms.mul_spec`
* `FunctionalExtensionality.functional_extensionality_dep`
* `PrimFloat.abs`
* `PrimFloat.add`
* `PrimFloat.div`
* `PrimFloat.eqb`
* `PrimFloat.float`
* `PrimFloat.frshiftexp`
* `PrimFloat.ldshiftexp`
* `PrimFloat.ltb`
* `PrimFloat.mul`
* `PrimFloat.normfr_mantissa`
* `PrimFloat.of_uint63`
* `PrimFloat.opp`
* `PrimFloat.sqrt`
* `PrimFloat.sub`
* `PrimInt63.eqb`
* `PrimInt63.int`
* `PrimInt63.land`
* `PrimInt63.lor`
* `PrimInt63.lsl`
* `PrimInt63.lsr`
* `PrimInt63.sub`

- `PropMem.C118_refuted`

## Axioms:

* `ClassicalDedekindReals.sig_forall_dec`
* `ClassicalDedekindReals.sig_not_dec`
* `Classical_Prop.classic`
* `FloatAxioms.Prim2SF_SF2Prim`
* `FloatAxioms.Prim2SF_valid`
* `FloatAxioms.SF2Prim_Prim2SF`
* `FloatAxioms.add_spec`
* `FloatAxioms.mul_spec`
* `FunctionalExtensionality.functional_extensionality_dep`
* `PrimFloat.abs`
* `PrimFloat.add`
* `PrimFloat.div`
* `PrimFloat.eqb`
* `PrimFloat.float`
* `PrimFloat.frshiftexp`
* `PrimFloat.ldshiftexp`
* `PrimFloat.ltb`
* `PrimFloat.mul`
* `PrimFloat.normfr_mantissa`
* `PrimFloat.of_uint63`
* `PrimFloat.opp`
* `PrimFloat.sqrt`
* `PrimFloat.sub`
* `PrimInt63.eqb`
* `PrimInt63.int`
* `PrimInt63.land`
* `PrimInt63.lor`
* `PrimInt63.lsl`
* `PrimInt63.lsr`
* `PrimInt63.sub`

- `PropAnalyticalProgram.C49_binary64_partial`

## Axioms:

* `ClassicalDedekindReals.sig_forall_dec`
* `ClassicalDedekindReals.sig_not_dec`
* `Classical_Prop.classic`
* `FloatAxioms.Prim2SF_SF2Prim`
* `FloatAxioms.Prim2SF_valid`
* `FloatAxioms.SF2Prim_Prim2SF`
* `FloatAxioms.abs_spec`
* `FloatAxioms.div_spec`
* `FloatAxioms.eqb_spec`
* `FunctionalExtensionality.functional_extensionality_dep`
* `PrimFloat.abs`
* `PrimFloat.add`
* `PrimFloat.div`
* `PrimFloat.eqb`
* `PrimFloat.float`
* `PrimFloat.frshiftexp`
* `PrimFloat.ldshiftexp`
* `PrimFloat.ltb`
* `PrimFloat.mul`
* `PrimFloat.normfr_mantissa`
* `PrimFloat.of_uint63`
* `PrimFloat.opp`
* `PrimFloat.sqrt`
* `PrimFloat.sub`
* `PrimInt63.eqb`
* `PrimInt63.int`
* `PrimInt63.land`
* `PrimInt63.lor`
* `PrimInt63.lsl`
* `PrimInt63.lsr`
* `PrimInt63.sub`

- `PropBatches.C44_decimal_near`
- `PropBatches.C44_exact_partial`
- `PropCount.C130_exact_partial`
- `PropCount.C130_decimal_partial`

## Axioms:

* `ClassicalDedekindReals.sig_forall_dec`
* `ClassicalDedekindReals.sig_not_dec`
* `Classical_Prop.classic`
* `FloatAxioms.Prim2SF_SF2Prim`
* `FloatAxioms.Prim2SF_valid`
* `FloatAxioms.SF2Prim_Prim2SF`
* `FloatAxioms.add_spec`
* `FloatAxioms.mul_spec`
* `FloatAxioms.sub_spec`
* `FunctionalExtensionality.functional_extensionality_dep`
* `PrimFloat.abs`
* `PrimFloat.add`
* `PrimFloat.div`
* `PrimFloat.eqb`
* `PrimFloat.float`
* `PrimFloat.frshiftexp`
* `PrimFloat.ldshiftexp`
* `PrimFloat.ltb`
* `PrimFloat.mul`
* `PrimFloat.normfr_mantissa`
* `PrimFloat.of_uint63`
* `PrimFloat.opp`
* `PrimFloat.sqrt`
* `PrimFloat.sub`
* `PrimInt63.eqb`
* `PrimInt63.int`
* `PrimInt63.land`
* `PrimInt63.lor`
* `PrimInt63.lsl`
* `PrimInt63.lsr`
* `PrimInt63.sub`

- `PropFloatGrid.C106_kernel_2d`
- `PropFloatGrid.C106_kernel_3d`

## Axioms:

* `ClassicalDedekindReals.sig_forall_dec`
* `ClassicalDedekindReals.sig_not_dec`
* `Classical_Prop.classic`
* `FloatAxioms.Prim2SF_SF2Prim`
* `FloatAxioms.Prim2SF_valid`
* `FloatAxioms.SF2Prim_Prim2SF`
* `FloatAxioms.div_spec`
* `FloatAxioms.eqb_spec`
* `FloatAxioms.sub_spec`
* `FunctionalExtensionality.functional_extensionality_dep`
* `PrimFloat.abs`
* `PrimFloat.add`
* `PrimFloat.div`
* `PrimFloat.eqb`
* `PrimFloat.float`
* `PrimFloat.frshiftexp`
* `PrimFloat.ldshiftexp`
* `PrimFloat.ltb`
* `PrimFloat.mul`
* `PrimFloat.normfr_mantissa`
* `PrimFloat.of_uint63`
* `PrimFloat.opp`
* `PrimFloat.sqrt`
* `PrimFloat.sub`
* `PrimInt63.eqb`
* `PrimInt63.int`
* `PrimInt63.land`
* `PrimInt63.lor`
* `PrimInt63.lsl`
* `PrimInt63.lsr`
* `PrimInt63.sub`

- `PropFloatJac.C107_jacobian_2d`
- `PropFloatJac.C107_jacobian_3d`

## Axioms:

* `ClassicalDedekindReals.sig_forall_dec`
* `ClassicalDedekindReals.sig_not_dec`
* `Classical_Prop.classic`
* `FloatAxioms.Prim2SF_SF2Prim`
* `FloatAxioms.Prim2SF_valid`
* `FloatAxioms.SF2Prim_Prim2SF`
* `FloatAxioms.add_spec`
* `FloatAxioms.div_spec`
* `FloatAxioms.mul_spec`
* `FloatAxioms.sub_spec`
* `FunctionalExtensionality.functional_extensionality_dep`
* `PrimFloat.abs`
* `PrimFloat.add`
* `PrimFloat.div`
* `PrimFloat.eqb`
* `PrimFloat.float`
* `PrimFloat.frshiftexp`
* `PrimFloat.ldshiftexp`
* `PrimFloat.ltb`
* `PrimFloat.mul`
* `PrimFloat.normfr_mantissa`
* `PrimFloat.of_uint63`
* `PrimFloat.opp`
* `PrimFloat.sqrt`
* `PrimFloat.sub`
* `PrimInt63.eqb`
* `PrimInt63.int`
* `PrimInt63.land`
* `PrimInt63.lor`
* `PrimInt63.lsl`
* `PrimInt63.lsr`
* `PrimInt63.sub`

- `PropRounding.C108_rounding`
- `PropRounding.C108_euler_trajectory`
- `PropRounding.C108_ab2_trajectory`
- `PropRounding.C108_rk4_trajectory`

## Axioms:

* `ClassicalDedekindReals.sig_forall_dec`
* `ClassicalDedekindReals.sig_not_dec`
* `Classical_Prop.classic`
* `FloatAxioms.Prim2SF_SF2Prim`
* `FloatAxioms.Prim2SF_valid`
* `FloatAxioms.SF2Prim_Prim2SF`
* `FloatAxioms.add_spec`
* `FloatAxioms.ltb_spec`
* `FloatAxioms.mul_spec`
* `FloatAxioms.sqrt_spec`
* `FloatAxioms.sub_spec`
* `FunctionalExtensionality.functional_extensionality_dep`
* `PrimFloat.abs`
* `PrimFloat.add`
* `PrimFloat.div`
* `PrimFloat.eqb`
* `PrimFloat.float`
* `PrimFloat.frshiftexp`
* `PrimFloat.ldshiftexp`
* `PrimFloat.ltb`
* `PrimFloat.mul`
* `PrimFloat.normfr_mantissa`
* `PrimFloat.of_uint63`
* `PrimFloat.opp`
* `PrimFloat.sqrt`
* `PrimFloat.sub`
* `PrimInt63.eqb`
* `PrimInt63.int`
* `PrimInt63.land`
* `PrimInt63.lor`
* `PrimInt63.lsl`
* `PrimInt63.lsr`
* `PrimInt63.sub`

- `PropAccuracy.C09_nan_only_near_conformal`

## Axioms:

* `ClassicalDedekindReals.sig_forall_dec`
* `ClassicalDedekindReals.sig_not_dec`
* `Classical_Prop.classic`
* `FloatAxioms.Prim2SF_SF2Prim`
* `FloatAxioms.Prim2SF_valid`
* `FloatAxioms.SF2Prim_Prim2SF`
* `FloatAxioms.add_spec`
* `FloatAxioms.div_spec`
* `FloatAxioms.eqb_spec`
* `FloatAxioms.ltb_spec`
* `FloatAxioms.mul_spec`
* `FloatAxioms.sqrt_spec`
* `FunctionalExtensionality.functional_extensionality_dep`
* `PrimFloat.abs`
* `PrimFloat.add`
* `PrimFloat.div`
* `PrimFloat.eqb`
* `PrimFloat.float`
* `PrimFloat.frshiftexp`
* `PrimFloat.ldshiftexp`
* `PrimFloat.ltb`
* `PrimFloat.mul`
* `PrimFloat.normfr_mantissa`
* `PrimFloat.of_uint63`
* `PrimFloat.opp`
* `PrimFloat.sqrt`
* `PrimFloat.sub`
* `PrimInt63.eqb`
* `PrimInt63.int`
* `PrimInt63.land`
* `PrimInt63.lor`
* `PrimInt63.lsl`
* `PrimInt63.lsr`
* `PrimInt63.sub`

- `PropFloatRun3.C110_ftle_3x3`

## Axioms:

* `ClassicalDedekindReals.sig_forall_dec`
* `ClassicalDedekindReals.sig_not_dec`
* `Classical_Prop.classic`
* `FloatAxioms.Prim2SF_SF2Prim`
* `FloatAxioms.Prim2SF_valid`
* `FloatAxioms.SF2Prim_Prim2SF`
* `FloatAxioms.add_spec`
* `FloatAxioms.div_spec`
* `FloatAxioms.eqb_spec`
* `FloatAxioms.ltb_spec`
* `FloatAxioms.mul_spec`
* `FloatAxioms.sub_spec`
* `FunctionalExtensionality.functional_extensionality_dep`
* `PrimFloat.abs`
* `PrimFloat.add`
* `PrimFloat.div`
* `PrimFloat.eqb`
* `PrimFloat.float`
* `PrimFloat.frshiftexp`
* `PrimFloat.ldshiftexp`
* `PrimFloat.ltb`
* `PrimFloat.mul`
* `PrimFloat.normfr_mantissa`
* `PrimFloat.of_uint63`
* `PrimFloat.opp`
* `PrimFloat.sqrt`
* `PrimFloat.sub`
* `PrimInt63.eqb`
* `PrimInt63.int`
* `PrimInt63.land`
* `PrimInt63.lor`
* `PrimInt63.lsl`
* `PrimInt63.lsr`
* `PrimInt63.sub`

- `PropFloatGrid.C106_grid_2d_partial`
- `PropFloatGrid.C106_grid_3d_partial`

## Axioms:

* `ClassicalDedekindReals.sig_forall_dec`
* `ClassicalDedekindReals.sig_not_dec`
* `Classical_Prop.classic`
* `FloatAxioms.Prim2SF_SF2Prim`
* `FloatAxioms.Prim2SF_valid`
* `FloatAxioms.SF2Prim_Prim2SF`
* `FloatAxioms.add_spec`
* `FloatAxioms.div_spec`
* `FloatAxioms.eqb_spec`
* `FloatAxioms.ltb_spec`
* `FloatAxioms.mul_spec`
* `FloatAxioms.sqrt_spec`
* `FloatAxioms.sub_spec`
* `FunctionalExtensionality.functional_extensionality_dep`
* `PrimFloat.abs`
* `PrimFloat.add`
* `PrimFloat.div`
* `PrimFloat.eqb`
* `PrimFloat.float`
* `PrimFloat.frshiftexp`
* `PrimFloat.ldshiftexp`
* `PrimFloat.ltb`
* `PrimFloat.mul`
* `PrimFloat.normfr_mantissa`
* `PrimFloat.of_uint63`
* `PrimFloat.opp`
* `PrimFloat.sqrt`
* `PrimFloat.sub`
* `PrimInt63.eqb`
* `PrimInt63.int`
* `PrimInt63.land`
* `PrimInt63.lor`
* `PrimInt63.lsl`
* `PrimInt63.lsr`
* `PrimInt63.sub`

- `PropAccuracy.C99_accurate_away_from_conformal`
- `PropFloatJac.C107_ftle_2d`
- `PropFloatRun3.C110_jacobian_ftle`

## Axioms:

* `ClassicalDedekindReals.sig_forall_dec`
* `ClassicalDedekindReals.sig_not_dec`
* `Classical_Prop.classic`
* `FloatAxioms.Prim2SF_SF2Prim`
* `FloatAxioms.Prim2SF_valid`
* `FloatAxioms.SF2Prim_Prim2SF`
* `FloatAxioms.abs_spec`
* `FloatAxioms.add_spec`
* `FloatAxioms.div_spec`
* `FloatAxioms.eqb_spec`
* `FloatAxioms.ltb_spec`
* `FloatAxioms.mul_spec`
* `FloatAxioms.sqrt_spec`
* `FloatAxioms.sub_spec`
* `FunctionalExtensionality.functional_extensionality_dep`
* `PrimFloat.abs`
* `PrimFloat.add`
* `PrimFloat.div`
* `PrimFloat.eqb`
* `PrimFloat.float`
* `PrimFloat.frshiftexp`
* `PrimFloat.ldshiftexp`
* `PrimFloat.ltb`
* `PrimFloat.mul`
* `PrimFloat.normfr_mantissa`
* `PrimFloat.of_uint63`
* `PrimFloat.opp`
* `PrimFloat.sqrt`
* `PrimFloat.sub`
* `PrimInt63.eqb`
* `PrimInt63.int`
* `PrimInt63.land`
* `PrimInt63.lor`
* `PrimInt63.lsl`
* `PrimInt63.lsr`
* `PrimInt63.sub`

- `PropAnalyticalProgram.C113_returns_2d`
- `PropAnalyticalProgram.C113_returns_3d`
- `PropAnalyticalProgram.C113_saves_2d`
- `PropAnalyticalProgram.C113_saves_3d`
- `PropFloatRun.C109_exact_images`
- `PropFloatRun.C109_flow`
- `PropFloatRun3.C110_exact_images`
- `PropFloatRun3.C110_flow`
- `PropGridProgram.C112_program`
- `PropGridProgram3.C115_program`
- `PropGridRun.C111_flow`
- `PropGridRun.C111_exact_images`
- `PropGridRun3.C114_flow`
- `PropGridRun3.C114_exact_images`
- `PropScatter.C116_flow`
- `PropScatter.C116_exact_images`
- `PropScatterProgram.C117_program`
