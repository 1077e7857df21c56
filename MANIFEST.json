{
 "claims": [
  {
   "property": "C01",
   "status": "proved",
   "theorems": [
    "C01_integer_lookup",
    "C01_real_lookup",
    "C01_integer_value",
    "C01_lookup_total",
    "C01_lookup_deterministic",
    "C01_last_line_refuted"
   ],
   "note": "Theorems ending in _refuted exhibit a concrete input where the code deviates from the ideal claim; the other theorems give the exact behaviour."
  },
  {
   "property": "C02",
   "status": "proved",
   "theorems": [
    "C02_other_lines_irrelevant",
    "C02_real_lookup_after_any_calls",
    "C02_integer_lookup_after_any_calls",
    "C02_material_lookup_after_any_calls",
    "C02_swap_lines"
   ],
   "note": ""
  },
  {
   "property": "C03",
   "status": "proved",
   "theorems": [
    "C03_no_UB_on_spaced_files",
    "C03_first_line_without_space_is_UB",
    "C03_leading_blank_line_refuted"
   ],
   "note": "Theorems ending in _refuted exhibit a concrete input where the code deviates from the ideal claim; the other theorems give the exact behaviour."
  },
  {
   "property": "C04",
   "status": "proved",
   "theorems": [
    "C04_material_lookup",
    "C04_missing_phase_stops",
    "C04_other_blocks_irrelevant",
    "C04_empty_last_block_refuted"
   ],
   "note": "Theorems ending in _refuted exhibit a concrete input where the code deviates from the ideal claim; the other theorems give the exact behaviour."
  },
  {
   "property": "C05",
   "status": "proved",
   "theorems": [
    "C05_string_lookup_hit",
    "C05_string_lookup_miss",
    "C05_import_file_before_dir_ignored",
    "C05_prefix_collision_refuted"
   ],
   "note": "Theorems ending in _refuted exhibit a concrete input where the code deviates from the ideal claim; the other theorems give the exact behaviour."
  },
  {
   "property": "C06",
   "status": "proved",
   "theorems": [
    "C06_switches_coherent",
    "C06_stops_iff_bad_stencil",
    "C06_coherent_input_unchanged",
    "C06_user_values_kept"
   ],
   "note": ""
  },
  {
   "property": "C07",
   "status": "proved",
   "theorems": [
    "C07_input_divisors_coherent",
    "C07_derived_units_coherent",
    "C07_momentum_form",
    "C07_energy_form"
   ],
   "note": ""
  },
  {
   "property": "C08",
   "status": "proved",
   "theorems": [
    "C08_restart_equals_continuing_run",
    "C08_exact_restore",
    "C08_clock_restored_after_rounding",
    "C08_bit_exact_clock_refuted"
   ],
   "note": "Theorems ending in _refuted exhibit a concrete input where the code deviates from the ideal claim; the other theorems give the exact behaviour."
  },
  {
   "property": "C09",
   "status": "partial",
   "theorems": [
    "C09_old_stresses_go_to_current_stresses",
    "C09_old_stresses_restored_refuted"
   ],
   "note": "The property as stated does not hold of the code: C09_old_stresses_restored_refuted gives a counterexample. Proved is where the bytes written for the old stresses go on restoring (into the current-stress fields), and that the old-stress fields are left as they were."
  },
  {
   "property": "C10",
   "status": "partial",
   "theorems": [
    "C10_sections_before_series",
    "C10_series_read_from_shifted_offsets",
    "C10_series_restored_refuted"
   ],
   "note": "The property as stated does not hold of the code: C10_series_restored_refuted gives a counterexample. Proved is that all sections before the time series are restored, and from which shifted offsets each series is read."
  },
  {
   "property": "C11",
   "status": "proved",
   "theorems": [
    "C11_last_completed_survives",
    "C11_restart_point_survives",
    "C11_any_number_of_crashes",
    "C11_newest_name_is_newest_refuted",
    "C11_single_file_survives_refuted"
   ],
   "note": "Theorems ending in _refuted exhibit a concrete input where the code deviates from the ideal claim; the other theorems give the exact behaviour."
  },
  {
   "property": "C12",
   "status": "proved",
   "theorems": [
    "C12_exact_files",
    "C12_at_most_three_files"
   ],
   "note": ""
  },
  {
   "property": "C13",
   "status": "proved",
   "theorems": [
    "C13_restarts_equal_direct_run",
    "C13_direct_run",
    "C13_restart_at_zero_is_fresh",
    "C13_single_file_step_checked_refuted"
   ],
   "note": "Theorems ending in _refuted exhibit a concrete input where the code deviates from the ideal claim; the other theorems give the exact behaviour."
  },
  {
   "property": "C14",
   "status": "proved",
   "theorems": [
    "C14_terminates",
    "C14_fuel_irrelevant",
    "C14_meaning_of_ends",
    "C14_converged_step_is_accepted_refuted",
    "C14_accepted_before_limit",
    "C14_stops_after_iterations_iff"
   ],
   "note": "Theorems ending in _refuted exhibit a concrete input where the code deviates from the ideal claim; the other theorems give the exact behaviour. C14_stops_after_iterations_iff gives the exact condition of the stop after the iterations."
  },
  {
   "property": "C15",
   "status": "partial",
   "theorems": [
    "C15_switching_runs_are_determined",
    "C15_first_step_is_determined",
    "C15_always_determined_refuted",
    "C15_switch_exactly_when",
    "C15_switch_available_iff"
   ],
   "note": "The property as stated does not hold of the code: C15_always_determined_refuted gives a counterexample. Proved is determinedness for the first step and for histories that always switch, and exactly when the switch happens."
  },
  {
   "property": "C16",
   "status": "proved",
   "theorems": [
    "C16_clock_offset",
    "C16_clock_is_sum_of_steps",
    "C16_clock_ahead_after_repeat",
    "C16_clock_is_sum_of_steps_refuted"
   ],
   "note": "Theorems ending in _refuted exhibit a concrete input where the code deviates from the ideal claim; the other theorems give the exact behaviour."
  },
  {
   "property": "C17",
   "status": "proved",
   "theorems": [
    "C17_substeps_cover_solve_step",
    "C17_courant_respected_by_substeps",
    "C17_fixed_step_respects_courant_refuted"
   ],
   "note": "Theorems ending in _refuted exhibit a concrete input where the code deviates from the ideal claim; the other theorems give the exact behaviour."
  },
  {
   "property": "C18",
   "status": "proved",
   "theorems": [
    "C18_step_within_user_limits",
    "C18_courant_and_growth_limits",
    "C18_step_is_as_long_as_allowed",
    "C18_no_motion_uses_initial_step",
    "C18_fixed_step"
   ],
   "note": ""
  },
  {
   "property": "C19",
   "status": "partial",
   "theorems": [
    "C19_exact_reads",
    "C19_reads_in_range_refuted",
    "C19_velocity_reads_in_range"
   ],
   "note": "The property as stated does not hold of the code: C19_reads_in_range_refuted gives a counterexample. Proved is the exact set of temperature entries read, and that the velocity reads are in range."
  },
  {
   "property": "C20",
   "status": "proved",
   "theorems": [
    "C20_mechanical_runs_are_balanced",
    "C20_without_mechanics_refuted"
   ],
   "note": "Theorems ending in _refuted exhibit a concrete input where the code deviates from the ideal claim; the other theorems give the exact behaviour."
  },
  {
   "property": "C21",
   "status": "proved",
   "theorems": [
    "C21_numbering_is_bijective",
    "C21_grid_sizes"
   ],
   "note": ""
  },
  {
   "property": "C22",
   "status": "proved",
   "theorems": [
    "C22_vertex_average",
    "C22_vertex_bounds",
    "C22_air_deficit",
    "C22_linear_fields_exact",
    "C22_centre_average",
    "C22_centre_bounds",
    "C22_constants_next_to_air_refuted"
   ],
   "note": "Theorems ending in _refuted exhibit a concrete input where the code deviates from the ideal claim; the other theorems give the exact behaviour."
  },
  {
   "property": "C23",
   "status": "proved",
   "theorems": [
    "C23_coordinates_tile_the_domain",
    "C23_initial_coordinates",
    "C23_writes_in_range"
   ],
   "note": ""
  },
  {
   "property": "C24",
   "status": "proved",
   "theorems": [
    "C24_extrema_attained_and_bounding",
    "C24_schedule_independent",
    "C24_not_finite_stops",
    "C24_tagged_extrema",
    "C24_tagged_first_entry_in_air_refuted"
   ],
   "note": "Theorems ending in _refuted exhibit a concrete input where the code deviates from the ideal claim; the other theorems give the exact behaviour."
  },
  {
   "property": "C25",
   "status": "proved",
   "theorems": [
    "C25_partition_covers_once",
    "C25_blocks_are_the_serial_loop"
   ],
   "note": ""
  },
  {
   "property": "C26",
   "status": "proved",
   "theorems": [
    "C26_matrix_contents",
    "C26_thread_count_independent",
    "C26_rhs_thread_count_independent",
    "C26_rows_are_contiguous"
   ],
   "note": ""
  },
  {
   "property": "C27",
   "status": "partial",
   "theorems": [
    "C27_velocity_block_fits",
    "C27_vertical_velocity_block_fits",
    "C27_gradient_and_divergence_blocks_fit",
    "C27_buffer_overrun_refuted"
   ],
   "note": "The property as stated does not hold of the code: C27_buffer_overrun_refuted gives a counterexample. Proved is that the buffers suffice under a condition on grid size and thread count."
  },
  {
   "property": "C28",
   "status": "proved",
   "theorems": [
    "C28_numbering_is_a_bijection",
    "C28_numbers_follow_node_order"
   ],
   "note": ""
  },
  {
   "property": "C29",
   "status": "proved",
   "theorems": [
    "C29_predicates_agree_exactly_on_documented_codes",
    "C29_update_touches_only_unknowns",
    "C29_gather_then_scatter_is_identity",
    "C29_undocumented_code_reads_out_of_range_refuted"
   ],
   "note": "Theorems ending in _refuted exhibit a concrete input where the code deviates from the ideal claim; the other theorems give the exact behaviour."
  },
  {
   "property": "C30",
   "status": "proved",
   "theorems": [
    "C30_scaled_system_is_equivalent",
    "C30_every_solution_arises",
    "C30_scale_vectors_agree",
    "C30_newton_scale_of_B_agrees_refuted"
   ],
   "note": "Theorems ending in _refuted exhibit a concrete input where the code deviates from the ideal claim; the other theorems give the exact behaviour."
  },
  {
   "property": "C31",
   "status": "proved",
   "theorems": [
    "C31_vz_ghosts",
    "C31_vx_ghosts",
    "C31_after_solution_update",
    "C31_stale_corner_refuted"
   ],
   "note": "Theorems ending in _refuted exhibit a concrete input where the code deviates from the ideal claim; the other theorems give the exact behaviour."
  },
  {
   "property": "C32",
   "status": "proved",
   "theorems": [
    "C32_momentum_rows_linearise_residual",
    "C32_continuity_rows_linearise_residual",
    "C32_exact_solve_annihilates_residual",
    "C32_prescribed_pressure_refuted"
   ],
   "note": "Theorems ending in _refuted exhibit a concrete input where the code deviates from the ideal claim; the other theorems give the exact behaviour."
  },
  {
   "property": "C33",
   "status": "proved",
   "theorems": [
    "C33_columns_are_unknowns_x",
    "C33_columns_are_unknowns_z",
    "C33_columns_are_unknowns_c",
    "C33_unknown_neighbours_kept",
    "C33_velocity_block_symmetric",
    "C33_velocity_block_dissipates",
    "C33_gradient_is_minus_transposed_divergence",
    "C33_translation_exerts_no_force",
    "C33_stress_boundary_refuted",
    "C33_prescribed_pressure_refuted"
   ],
   "note": "Theorems ending in _refuted exhibit a concrete input where the code deviates from the ideal claim; the other theorems give the exact behaviour."
  },
  {
   "property": "C34",
   "status": "proved",
   "theorems": [
    "C34_operator_is_rotated_layered_law",
    "C34_operator_of_marker_mixture",
    "C34_operator_symmetric",
    "C34_factor_one_or_switched_off_is_isotropic",
    "C34_deviatoric_stress",
    "C34_dissipation",
    "C34_grid_stress_is_operator",
    "C34_effective_strain_rate_carries_old_stress"
   ],
   "note": ""
  },
  {
   "property": "C35",
   "status": "proved",
   "theorems": [
    "C35_accepted_step_decreases",
    "C35_no_decrease_means_stagnation",
    "C35_six_evaluations",
    "C35_trial_steps",
    "C35_uninitialised_read",
    "C35_uninitialised_read_refuted",
    "C35_best_decrease_is_taken",
    "C35_total_residual_increases_refuted"
   ],
   "note": "Theorems ending in _refuted exhibit a concrete input where the code deviates from the ideal claim; the other theorems give the exact behaviour."
  },
  {
   "property": "C36",
   "status": "proved",
   "theorems": [
    "C36_position_tells_the_sides",
    "C36_velocity_positions",
    "C36_pressure_position",
    "C36_single_column_refuted",
    "C36_callback_results_stored"
   ],
   "note": "Theorems ending in _refuted exhibit a concrete input where the code deviates from the ideal claim; the other theorems give the exact behaviour."
  },
  {
   "property": "C37",
   "status": "proved",
   "theorems": [
    "C37_pure_shear_conserves_mass",
    "C37_simple_shear_conserves_mass",
    "C37_templates_accepted",
    "C37_template_flows"
   ],
   "note": ""
  },
  {
   "property": "C38",
   "status": "proved",
   "theorems": [
    "C38_side_corrected_sum",
    "C38_south_corrected_sum",
    "C38_side_balance_refuted",
    "C38_sweep_changes_flux_by_end_slopes",
    "C38_zero_size_buffer_refuted",
    "C38_south_balance_refuted",
    "C38_unchanged_iff_within_a_millionth"
   ],
   "note": "Theorems ending in _refuted exhibit a concrete input where the code deviates from the ideal claim; the other theorems give the exact behaviour."
  },
  {
   "property": "C39",
   "status": "proved",
   "theorems": [
    "C39_smoothing_maximum_principle",
    "C39_balanced_side_within_corrected_range",
    "C39_rows_smoothed"
   ],
   "note": "C39_rows_smoothed characterises the number of smoothed rows."
  },
  {
   "property": "C40",
   "status": "partial",
   "theorems": [
    "C40_ellipse_accepted_set",
    "C40_rectangle_accepted_set",
    "C40_shapes_unrotated_or_centred",
    "C40_rotated_shape_misplaced_refuted"
   ],
   "note": "The property as stated does not hold of the code: C40_rotated_shape_misplaced_refuted gives a counterexample. Proved is the exact accepted sets, which are the intended ones for rotation zero or shapes centred at the origin."
  },
  {
   "property": "C41",
   "status": "partial",
   "theorems": [
    "C41_defined_phases_accepted",
    "C41_accepted_phases",
    "C41_undefined_phase_used_refuted",
    "C41_too_large_stops"
   ],
   "note": "The property as stated does not hold of the code: C41_undefined_phase_used_refuted gives a counterexample. Proved is that defined phases are accepted, which phases pass, and that too large ones stop the program."
  },
  {
   "property": "C42",
   "status": "partial",
   "theorems": [
    "C42_stem",
    "C42_buffer_overrun_refuted",
    "C42_name_when_followed_by_zero",
    "C42_bytes_touched"
   ],
   "note": "The property as stated does not hold of the code: C42_buffer_overrun_refuted gives a counterexample. Proved is the bytes touched and the name produced when the buffer happens to be followed by a zero."
  },
  {
   "property": "C43",
   "status": "proved",
   "theorems": [
    "C43_closed_domain",
    "C43_periodic_domain",
    "C43_large_overshoot_refuted",
    "C43_all_markers_any_schedule"
   ],
   "note": "Theorems ending in _refuted exhibit a concrete input where the code deviates from the ideal claim; the other theorems give the exact behaviour."
  },
  {
   "property": "C44",
   "status": "proved",
   "theorems": [
    "C44_classical_scheme",
    "C44_linear_flow",
    "C44_inactive_stay_inactive",
    "C44_lost_at_first_stage"
   ],
   "note": ""
  },
  {
   "property": "C45",
   "status": "proved",
   "theorems": [
    "C45_one_solve_step",
    "C45_many_steps",
    "C45_equal_steps",
    "C45_air_top_stays",
    "C45_side_markers_lost",
    "C45_side_markers_lost_refuted"
   ],
   "note": "Theorems ending in _refuted exhibit a concrete input where the code deviates from the ideal claim; the other theorems give the exact behaviour."
  },
  {
   "property": "C46",
   "status": "proved",
   "theorems": [
    "C46_unsaved_fields_rescaled"
   ],
   "note": ""
  },
  {
   "property": "C47",
   "status": "proved",
   "theorems": [
    "C47_jacobian_storage_exists",
    "C47_other_newton_values_refuted"
   ],
   "note": "Theorems ending in _refuted exhibit a concrete input where the code deviates from the ideal claim; the other theorems give the exact behaviour."
  },
  {
   "property": "C48",
   "status": "proved",
   "theorems": [
    "C48_initial_director_unit",
    "C48_director_follows_layer",
    "C48_rigid_rotation",
    "C48_opposite_directors_equivalent",
    "C48_viscosity_orientation_free",
    "C48_local_stress_matches_operator_upward_director",
    "C48_downward_director_mirrored_refuted"
   ],
   "note": "Theorems ending in _refuted exhibit a concrete input where the code deviates from the ideal claim; the other theorems give the exact behaviour."
  },
  {
   "property": "C49",
   "status": "partial",
   "theorems": [
    "C49_jaumann_increment",
    "C49_analytical_is_opposite_rotation",
    "C49_analytical_sense_refuted",
    "C49_stored_stress_unchanged",
    "C49_stress_rotation_refuted",
    "C49_grid_vorticity_erased",
    "C49_values_go_to_their_markers"
   ],
   "note": "The property as stated does not hold of the code: C49_stress_rotation_refuted gives a counterexample. Proved is the increments of the rotation formulas, that stored marker stresses never change and that the grid vorticity is erased."
  },
  {
   "property": "C50",
   "status": "proved",
   "theorems": [
    "C50_weights_are_hat_functions",
    "C50_value_between_reaching_markers",
    "C50_unreached_node_unchanged",
    "C50_phase_fractions_sum_to_one",
    "C50_thread_count_irrelevant",
    "C50_periodic_vertices_refuted",
    "C50_lateral_vertex_columns_agree"
   ],
   "note": "Theorems ending in _refuted exhibit a concrete input where the code deviates from the ideal claim; the other theorems give the exact behaviour."
  },
  {
   "property": "C51",
   "status": "proved",
   "theorems": [
    "C51_reads_existing_nodes",
    "C51_linear_fields_exact",
    "C51_maximum_principle",
    "C51_no_air_velocity",
    "C51_vz_air_velocity_refuted"
   ],
   "note": "Theorems ending in _refuted exhibit a concrete input where the code deviates from the ideal claim; the other theorems give the exact behaviour."
  },
  {
   "property": "C52",
   "status": "proved",
   "theorems": [
    "C52_cell_tags",
    "C52_exact_cells",
    "C52_fluid_never_touches_air",
    "C52_surface_position_never_reported",
    "C52_velocities",
    "C52_interior_vertices",
    "C52_cells_mirror",
    "C52_side_vertices_mirror_refuted",
    "C52_density_weight",
    "C52_density_weight_refuted",
    "C52_top_line_read_refuted"
   ],
   "note": "Theorems ending in _refuted exhibit a concrete input where the code deviates from the ideal claim; the other theorems give the exact behaviour."
  },
  {
   "property": "C53",
   "status": "proved",
   "theorems": [
    "C53_column_exists",
    "C53_west_side_refuted",
    "C53_heights_within_chain",
    "C53_uniform_motion",
    "C53_empty_columns_refuted",
    "C53_surface_is_the_broken_line"
   ],
   "note": "Theorems ending in _refuted exhibit a concrete input where the code deviates from the ideal claim; the other theorems give the exact behaviour."
  },
  {
   "property": "C54",
   "status": "proved",
   "theorems": [
    "C54_remesh",
    "C54_room_suffices",
    "C54_recycled_markers_ignored_refuted",
    "C54_chain_on_surface"
   ],
   "note": "Theorems ending in _refuted exhibit a concrete input where the code deviates from the ideal claim; the other theorems give the exact behaviour."
  },
  {
   "property": "C55",
   "status": "proved",
   "theorems": [
    "C55_diffusion_steps",
    "C55_diffusivity_refuted",
    "C55_diffusion_stable",
    "C55_sedimentation",
    "C55_overfill_refuted",
    "C55_valley_incision"
   ],
   "note": "Theorems ending in _refuted exhibit a concrete input where the code deviates from the ideal claim; the other theorems give the exact behaviour."
  },
  {
   "property": "C56",
   "status": "proved",
   "theorems": [
    "C56_cleanup",
    "C56_sediments",
    "C56_sediment_phase",
    "C56_deformation_refuted",
    "C56_capacity_refuted"
   ],
   "note": "Theorems ending in _refuted exhibit a concrete input where the code deviates from the ideal claim; the other theorems give the exact behaviour."
  },
  {
   "property": "C57",
   "status": "proved",
   "theorems": [
    "C57_total_update",
    "C57_incremental_one_sub_step",
    "C57_increments_lost_refuted",
    "C57_zero_mean",
    "C57_zero_mean_reads_refuted"
   ],
   "note": "Theorems ending in _refuted exhibit a concrete input where the code deviates from the ideal claim; the other theorems give the exact behaviour."
  },
  {
   "property": "C58",
   "status": "proved",
   "theorems": [
    "C58_effective_viscosity",
    "C58_monotone",
    "C58_budget",
    "C58_gbs_ignored_refuted",
    "C58_gbs_alone_refuted"
   ],
   "note": "Theorems ending in _refuted exhibit a concrete input where the code deviates from the ideal claim; the other theorems give the exact behaviour."
  },
  {
   "property": "C59",
   "status": "proved",
   "theorems": [
    "C59_below_yield",
    "C59_return_mapping",
    "C59_nonnegative",
    "C59_tight_tolerance_refuted",
    "C59_nonlinear_viscoplastic_refuted",
    "C59_tension_refuted",
    "C59_partition_refuted"
   ],
   "note": "Theorems ending in _refuted exhibit a concrete input where the code deviates from the ideal claim; the other theorems give the exact behaviour."
  },
  {
   "property": "C60",
   "status": "proved",
   "theorems": [
    "C60_work_balance",
    "C60_plastic_work_refuted",
    "C60_elastic_work_refuted"
   ],
   "note": "Theorems ending in _refuted exhibit a concrete input where the code deviates from the ideal claim; the other theorems give the exact behaviour."
  },
  {
   "property": "C61",
   "status": "proved",
   "theorems": [
    "C61_average_between",
    "C61_within_limits",
    "C61_averages_ordered",
    "C61_phase_order_irrelevant",
    "C61_modulus_between",
    "C61_unknown_average_refuted",
    "C61_deformation_map_refuted",
    "C61_mixture_between",
    "C61_reaction_progress",
    "C61_kinetic_density_between"
   ],
   "note": "Theorems ending in _refuted exhibit a concrete input where the code deviates from the ideal claim; the other theorems give the exact behaviour."
  },
  {
   "property": "C62",
   "status": "proved",
   "theorems": [
    "C62_linear_from_zero",
    "C62_linear_outside",
    "C62_delayed_onset_refuted",
    "C62_negative_friction_refuted",
    "C62_smooth"
   ],
   "note": "Theorems ending in _refuted exhibit a concrete input where the code deviates from the ideal claim; the other theorems give the exact behaviour."
  },
  {
   "property": "C63",
   "status": "proved",
   "theorems": [
    "C63_table1_linear",
    "C63_table2_bilinear",
    "C63_outside_clamped",
    "C63_table2_between",
    "C63_lowest_pressure_refuted",
    "C63_lowest_temperature_refuted",
    "C63_edge_value_refuted"
   ],
   "note": "Theorems ending in _refuted exhibit a concrete input where the code deviates from the ideal claim; the other theorems give the exact behaviour."
  },
  {
   "property": "C64",
   "status": "proved",
   "theorems": [
    "C64_derivatives",
    "C64_quadratic_fields_exact",
    "C64_rigid_motion_invariance",
    "C64_deviatoric",
    "C64_shear_below_surface_refuted",
    "C64_stale_rotation_refuted"
   ],
   "note": "Theorems ending in _refuted exhibit a concrete input where the code deviates from the ideal claim; the other theorems give the exact behaviour."
  },
  {
   "property": "C65",
   "status": "proved",
   "theorems": [
    "C65_law_obeyed",
    "C65_units_irrelevant",
    "C65_frozen_below_zero",
    "C65_monotone",
    "C65_data_base",
    "C65_user_law",
    "C65_reference_stress_refuted",
    "C65_linear_law_1_refuted",
    "C65_peierls_obeyed",
    "C65_peierls_tangent",
    "C65_peierls_cancel_refuted"
   ],
   "note": "Theorems ending in _refuted exhibit a concrete input where the code deviates from the ideal claim; the other theorems give the exact behaviour."
  },
  {
   "property": "C66",
   "status": "proved",
   "theorems": [
    "C66_end_members",
    "C66_between",
    "C66_geometric",
    "C66_pressure_dropped_refuted"
   ],
   "note": "Theorems ending in _refuted exhibit a concrete input where the code deviates from the ideal claim; the other theorems give the exact behaviour."
  },
  {
   "property": "C67",
   "status": "proved",
   "theorems": [
    "C67_units_irrelevant"
   ],
   "note": ""
  },
  {
   "property": "C68",
   "status": "proved",
   "theorems": [
    "C68_heat_balance",
    "C68_one_outcome",
    "C68_periodic_ends_refuted",
    "C68_bottom_flux_refuted"
   ],
   "note": "Theorems ending in _refuted exhibit a concrete input where the code deviates from the ideal claim; the other theorems give the exact behaviour."
  },
  {
   "property": "C69",
   "status": "proved",
   "theorems": [
    "C69_no_undershoot",
    "C69_no_overshoot",
    "C69_all_steps_bounded",
    "C69_order_kept"
   ],
   "note": ""
  },
  {
   "property": "C70",
   "status": "proved",
   "theorems": [
    "C70_heat_conserved",
    "C70_positive_definite",
    "C70_storage",
    "C70_periodic_air_refuted"
   ],
   "note": "Theorems ending in _refuted exhibit a concrete input where the code deviates from the ideal claim; the other theorems give the exact behaviour."
  },
  {
   "property": "C71",
   "status": "proved",
   "theorems": [
    "C71_ten_cooling_steps"
   ],
   "note": ""
  },
  {
   "property": "C72",
   "status": "proved",
   "theorems": [
    "C72_centres_bounded",
    "C72_vertices_bounded",
    "C72_centres_linear",
    "C72_vertices_linear",
    "C72_periodic_ends",
    "C72_inactive_zero",
    "C72_air_column_refuted"
   ],
   "note": "Theorems ending in _refuted exhibit a concrete input where the code deviates from the ideal claim; the other theorems give the exact behaviour."
  },
  {
   "property": "C73",
   "status": "proved",
   "theorems": [
    "C73_new_centres_bounded",
    "C73_new_vertices_bounded",
    "C73_same_without_air",
    "C73_no_rock_gives_zero"
   ],
   "note": ""
  },
  {
   "property": "C74",
   "status": "proved",
   "theorems": [
    "C74_strain_bounded",
    "C74_interior_bounded",
    "C74_surface_refuted"
   ],
   "note": "Theorems ending in _refuted exhibit a concrete input where the code deviates from the ideal claim; the other theorems give the exact behaviour."
  },
  {
   "property": "C75",
   "status": "proved",
   "theorems": [
    "C75_reseeding",
    "C75_nothing_to_do",
    "C75_isolated_cell_stops",
    "C75_capacity",
    "C75_use_after_free_refuted",
    "C75_topography_ignored",
    "C75_above_surface_refuted"
   ],
   "note": "Theorems ending in _refuted exhibit a concrete input where the code deviates from the ideal claim; the other theorems give the exact behaviour."
  },
  {
   "property": "C76",
   "status": "proved",
   "theorems": [
    "C76_inflow",
    "C76_full_array_refuted",
    "C76_overwrite_refuted"
   ],
   "note": "Theorems ending in _refuted exhibit a concrete input where the code deviates from the ideal claim; the other theorems give the exact behaviour."
  },
  {
   "property": "C77",
   "status": "proved",
   "theorems": [
    "C77_one_marker_per_tile",
    "C77_number",
    "C77_noise_above_surface_refuted"
   ],
   "note": "Theorems ending in _refuted exhibit a concrete input where the code deviates from the ideal claim; the other theorems give the exact behaviour."
  },
  {
   "property": "C78",
   "status": "proved",
   "theorems": [
    "C78_transmutation",
    "C78_last_marker_refuted",
    "C78_inactive_marker_refuted"
   ],
   "note": "Theorems ending in _refuted exhibit a concrete input where the code deviates from the ideal claim; the other theorems give the exact behaviour."
  },
  {
   "property": "C79",
   "status": "proved",
   "theorems": [
    "C79_fraction",
    "C79_hotter_melts_more",
    "C79_solid_stays_solid",
    "C79_liquid_stays_liquid",
    "C79_relaxes",
    "C79_nearly_linear",
    "C79_units_refuted",
    "C79_comma_refuted",
    "C79_divided_refuted",
    "C79_unknown_law_refuted",
    "C79_cell_fraction",
    "C79_marker_fraction",
    "C79_marker_update"
   ],
   "note": "Theorems ending in _refuted exhibit a concrete input where the code deviates from the ideal claim; the other theorems give the exact behaviour."
  },
  {
   "property": "C80",
   "status": "proved",
   "theorems": [
    "C80_heat_capacity",
    "C80_defined",
    "C80_without_melt",
    "C80_volume_source",
    "C80_surface_test_refuted"
   ],
   "note": "Theorems ending in _refuted exhibit a concrete input where the code deviates from the ideal claim; the other theorems give the exact behaviour."
  },
  {
   "property": "C81",
   "status": "proved",
   "theorems": [
    "C81_total_is_sum",
    "C81_strain_grows",
    "C81_uniform",
    "C81_side_refuted",
    "C81_peaks"
   ],
   "note": "Theorems ending in _refuted exhibit a concrete input where the code deviates from the ideal claim; the other theorems give the exact behaviour."
  },
  {
   "property": "C82",
   "status": "proved",
   "theorems": [
    "C82_material_line",
    "C82_homogeneous",
    "C82_simple_shear",
    "C82_area",
    "C82_area_refuted"
   ],
   "note": "Theorems ending in _refuted exhibit a concrete input where the code deviates from the ideal claim; the other theorems give the exact behaviour."
  },
  {
   "property": "C83",
   "status": "proved",
   "theorems": [
    "C83_ratio",
    "C83_unique",
    "C83_rotation_invariant",
    "C83_rotation_is_no_strain",
    "C83_sediment_refuted"
   ],
   "note": "Theorems ending in _refuted exhibit a concrete input where the code deviates from the ideal claim; the other theorems give the exact behaviour."
  },
  {
   "property": "C84",
   "status": "proved",
   "theorems": [
    "C84_plain",
    "C84_plain_still",
    "C84_subgrid_agrees",
    "C84_relaxation",
    "C84_scatter_bounded",
    "C84_still_grid_refuted",
    "C84_melt_range",
    "C84_melt_exact",
    "C84_grain_size_forgotten_refuted"
   ],
   "note": "Theorems ending in _refuted exhibit a concrete input where the code deviates from the ideal claim; the other theorems give the exact behaviour."
  },
  {
   "property": "C85",
   "status": "proved",
   "theorems": [
    "C85_larger_option_refuted",
    "C85_documented_options",
    "C85_units",
    "C85_pressure_units_refuted",
    "C85_pressure_factor_refuted"
   ],
   "note": "Theorems ending in _refuted exhibit a concrete input where the code deviates from the ideal claim; the other theorems give the exact behaviour."
  },
  {
   "property": "C86",
   "status": "proved",
   "theorems": [
    "C86_content",
    "C86_names",
    "C86_params",
    "C86_chunk",
    "C86_one_file_per_step",
    "C86_sorted",
    "C86_sorted_refuted",
    "C86_source"
   ],
   "note": "Theorems ending in _refuted exhibit a concrete input where the code deviates from the ideal claim; the other theorems give the exact behaviour."
  },
  {
   "property": "C87",
   "status": "proved",
   "theorems": [
    "C87_nearest_marker",
    "C87_pure_cell",
    "C87_normal_map_refuted",
    "C87_stray_read",
    "C87_stray_read_refuted"
   ],
   "note": "Theorems ending in _refuted exhibit a concrete input where the code deviates from the ideal claim; the other theorems give the exact behaviour."
  },
  {
   "property": "C88",
   "status": "proved",
   "theorems": [
    "C88_means",
    "C88_mean_range",
    "C88_invariant_dominates",
    "C88_no_rock_refuted",
    "C88_one_entry_per_step",
    "C88_units",
    "C88_heat",
    "C88_work_refuted",
    "C88_shortening_lags",
    "C88_shortening_refuted"
   ],
   "note": "Theorems ending in _refuted exhibit a concrete input where the code deviates from the ideal claim; the other theorems give the exact behaviour."
  },
  {
   "property": "C89",
   "status": "proved",
   "theorems": [
    "C89_changed_at_most_once",
    "C89_change_bound",
    "C89_power_of_two_units",
    "C89_unchanged_refuted",
    "C89_residual_drift_refuted",
    "C89_order"
   ],
   "note": "Theorems ending in _refuted exhibit a concrete input where the code deviates from the ideal claim; the other theorems give the exact behaviour."
  },
  {
   "property": "C90",
   "status": "proved",
   "theorems": [
    "C90_success",
    "C90_never_worse",
    "C90_iterations",
    "C90_minimal",
    "C90_rate",
    "C90_exact_guess_refuted",
    "C90_indefinite_refuted"
   ],
   "note": "Theorems ending in _refuted exhibit a concrete input where the code deviates from the ideal claim; the other theorems give the exact behaviour."
  },
  {
   "property": "C91",
   "status": "proved",
   "theorems": [
    "C91_momentum",
    "C91_compressible",
    "C91_divergence_falls",
    "C91_rate",
    "C91_solution"
   ],
   "note": ""
  },
  {
   "property": "C92",
   "status": "proved",
   "theorems": [
    "C92_accepted",
    "C92_accepted_closed",
    "C92_exit",
    "C92_early",
    "C92_signed_refuted",
    "C92_negative_refuted",
    "C92_nan_refuted",
    "C92_momentum_refuted",
    "C92_zero_iterations_refuted"
   ],
   "note": "Theorems ending in _refuted exhibit a concrete input where the code deviates from the ideal claim; the other theorems give the exact behaviour."
  },
  {
   "property": "C93",
   "status": "proved",
   "theorems": [
    "C93_entries",
    "C93_consistent",
    "C93_other_solvers",
    "C93_air_refuted",
    "C93_bounds_refuted"
   ],
   "note": "Theorems ending in _refuted exhibit a concrete input where the code deviates from the ideal claim; the other theorems give the exact behaviour."
  },
  {
   "property": "C94",
   "status": "proved",
   "theorems": [
    "C94_marked",
    "C94_sticky_refuted"
   ],
   "note": "Theorems ending in _refuted exhibit a concrete input where the code deviates from the ideal claim; the other theorems give the exact behaviour."
  },
  {
   "property": "C95",
   "status": "proved",
   "theorems": [
    "C95_solution_goes_back",
    "C95_guess",
    "C95_guess_vertical_refuted",
    "C95_guess_bounds_refuted",
    "C95_guess_bounds",
    "C95_rows"
   ],
   "note": "Theorems ending in _refuted exhibit a concrete input where the code deviates from the ideal claim; the other theorems give the exact behaviour."
  },
  {
   "property": "C96",
   "status": "proved",
   "theorems": [
    "C96_gradient",
    "C96_column",
    "C96_air",
    "C96_deeper",
    "C96_closed_top",
    "C96_closed_top_refuted",
    "C96_overburden",
    "C96_topography",
    "C96_overburden_refuted",
    "C96_surface_bounds",
    "C96_surface_bounds_refuted"
   ],
   "note": "Theorems ending in _refuted exhibit a concrete input where the code deviates from the ideal claim; the other theorems give the exact behaviour."
  },
  {
   "property": "C97",
   "status": "proved",
   "theorems": [
    "C97_force_z",
    "C97_force_x",
    "C97_rest",
    "C97_rest_surface"
   ],
   "note": ""
  },
  {
   "property": "C98",
   "status": "proved",
   "theorems": [
    "C98_radial",
    "C98_lower_half_refuted",
    "C98_horizontal_refuted"
   ],
   "note": "Theorems ending in _refuted exhibit a concrete input where the code deviates from the ideal claim; the other theorems give the exact behaviour."
  },
  {
   "property": "C99",
   "status": "proved",
   "theorems": [
    "C99_between",
    "C99_average",
    "C99_air"
   ],
   "note": ""
  },
  {
   "property": "C100",
   "status": "proved",
   "theorems": [
    "C100_reseeding",
    "C100_sediment_refuted",
    "C100_nothing_to_do",
    "C100_few_wanted",
    "C100_isolated_cell_stops",
    "C100_new_list_refuted",
    "C100_capacity_refuted",
    "C100_periodic_neighbours_refuted"
   ],
   "note": "Theorems ending in _refuted exhibit a concrete input where the code deviates from the ideal claim; the other theorems give the exact behaviour."
  },
  {
   "property": "C101",
   "status": "proved",
   "theorems": [
    "C101_tangent_operator",
    "C101_tangent_operator_anisotropic",
    "C101_finite_perturbation",
    "C101_perturbation_positive",
    "C101_average_is_the_rheology_average"
   ],
   "note": "The phase viscosity is an arbitrary differentiable function of Exx, Ezz, Exz and P (everything ViscosityConcise reads besides is fixed while perturbing); the stored reference viscosities are those of the state. The pressure correction is P + K dt div_pl for each phase, which excludes the tensile cap."
  },
  {
   "property": "C102",
   "status": "proved",
   "theorems": [
    "C102_newton_row_x",
    "C102_newton_row_z",
    "C102_tangent_from_finite_differences",
    "C102_wall_pressure_refuted",
    "C102_no_slip_side_refuted",
    "C102_stress_boundary_refuted",
    "C102_beside_air_refuted"
   ],
   "note": "Rows, masks, folding of prescribed ghosts and weights transcribed coefficient by coefficient. Hypotheses: one of the two templates, rock within two cells, surface stabilisation equal in matrix and residual, no pressure dependence of the shear stress on free-slip walls. The refuted theorems show that leaving the template, the rock or the wall condition makes the rows wrong."
  },
  {
   "property": "C103",
   "status": "proved",
   "theorems": [
    "C103_run_undefined_iff_literal",
    "C103_only_stress_is_left",
    "C103_startup_defined",
    "C103_every_block_is_given_back_refuted"
   ],
   "note": "The refutation exhibits a free-surface run whose 16 bytes of input.stress are still live at the end."
  },
  {
   "property": "C104",
   "status": "proved",
   "theorems": [
    "C104_checkpoint_fits",
    "C104_restart_defined",
    "C104_fits_for_any_number_of_markers_refuted",
    "C104_size_from_name"
   ],
   "note": "The refutation shows that the capacity hypothesis is needed: with 3 markers for room of 2 the write reads out of bounds. C104_size_from_name gives the exact size of every array of the mesh, markers, surface and residual history from its name."
  },
  {
   "property": "C105",
   "status": "proved",
   "theorems": [
    "C105_chain_covers_every_column",
    "C105_heights_within_given_surface",
    "C105_plane_surface_reproduced",
    "C105_default_surface",
    "C105_markers_ask_the_user_at_their_position",
    "C105_sides_of_a_slope_refuted"
   ],
   "note": "The refutation is the side vertices of a sloping surface. A user phase of -1 takes a marker off the chain and is excluded by hypothesis."
  },
  {
   "property": "C106",
   "status": "proved",
   "theorems": [
    "C106_velocity_at_the_start",
    "C106_divergence_at_the_start",
    "C106_boundary_conditions_hold",
    "C106_pressure_at_the_start",
    "C106_pure_divergence_refuted",
    "C106_air_pressure_refuted"
   ],
   "note": "The refutations are the two exceptions of the statement."
  },
  {
   "property": "C107",
   "status": "proved",
   "theorems": [
    "C107_first_step_resolves_relaxation",
    "C107_other_runs_keep_the_given_step",
    "C107_first_solution_step",
    "C107_start_at_rest_refuted"
   ],
   "note": "The refutation is the start at rest. Only vertices are looked at by the code; the moduli of the cells are interpolated but not used. Viscosity and modulus fields are inputs."
  },
  {
   "property": "C108",
   "status": "proved",
   "theorems": [
    "C108_vx_of_the_surface",
    "C108_vz_below_the_surface",
    "C108_chain_velocity",
    "C108_vz_is_that_of_the_surface_refuted",
    "C108_reads_outside_refuted"
   ],
   "note": "The refutations are the vertical velocity taken one row too low and the out-of-bounds reads."
  },
  {
   "property": "C109",
   "status": "proved",
   "theorems": [
    "C109_values",
    "C109_between",
    "C109_periodic_sides",
    "C109_completes",
    "C109_saturates",
    "C109_geometric_isotropic_refuted"
   ],
   "note": "The refutation is the stop with the geometric mean, proved as an equivalence. Phase fractions and aspect ratios are inputs; ani_fstrain is 0 or 1 by hypothesis."
  },
  {
   "property": "C110",
   "status": "proved",
   "theorems": [
    "C110_values",
    "C110_air",
    "C110_between",
    "C110_between_vertices",
    "C110_default_strains_refuted"
   ],
   "note": "The refutation is negative friction at the default strains. The plastic strain on the nodes is an input; erfc is any decreasing function with values in (0,2)."
  },
  {
   "property": "C111",
   "status": "proved",
   "theorems": [
    "C111_grain_size",
    "C111_composition_range",
    "C111_composition_still",
    "C111_composition_follows"
   ],
   "note": "The change of composition is interpolated by the model of C72."
  },
  {
   "property": "C112",
   "status": "proved",
   "theorems": [
    "C112_units",
    "C112_between",
    "C112_phase_density",
    "C112_checked",
    "C112_closed_models",
    "C112_short_file_refuted",
    "C112_index_refuted",
    "C112_unknown_model_refuted"
   ],
   "note": "The refutations are the unchecked file length, the unchecked diagram index and the uninitialised result for other model numbers. A file is the list of doubles it holds; density_model 4 is the look-up of C113."
  },
  {
   "property": "C113",
   "status": "proved",
   "theorems": [
    "C113_bounds",
    "C113_monotone",
    "C113_linear",
    "C113_gradient",
    "C113_units",
    "C113_between",
    "C113_short_file_refuted"
   ],
   "note": "The refutation is the accepted short file. Doubles are reals."
  },
  {
   "property": "C114",
   "status": "proved",
   "theorems": [
    "C114_budget",
    "C114_effective_viscosity",
    "C114_newton",
    "C114_units",
    "C114_data_base",
    "C114_iteration_fails_refuted",
    "C114_piezometers_refuted",
    "C114_needs_dislocation_refuted"
   ],
   "note": "The refutations are a rock with exactly one solution on which the iteration gives up after 20 steps for every shear modulus times time step of at least 1e4, and the two ways to a viscosity that is not a number. Doubles are reals; grain-boundary sliding is off."
  },
  {
   "property": "C115",
   "status": "proved",
   "theorems": [
    "C115_time",
    "C115_driving_force",
    "C115_density",
    "C115_units",
    "C115_reader",
    "C115_negative_numbers_refuted"
   ],
   "note": "The refutation is the negative law number. The driving force is the value of the table look-up of C63."
  },
  {
   "property": "C116",
   "status": "proved",
   "theorems": [
    "C116_momentum",
    "C116_same_iteration",
    "C116_continuity",
    "C116_rate",
    "C116_fixed_point",
    "C116_factor",
    "C116_accepted",
    "C116_exit",
    "C116_negative_refuted",
    "C116_nan_refuted",
    "C116_unsymmetric_refuted",
    "C116_out_of_plane_refuted"
   ],
   "note": "The refutations are the accepted wrong results named in brackets in the statement. The factorisation of cholmod is assumed exact (hypothesis of the theorems); doubles are reals except in the stopping test."
  },
  {
   "property": "C117",
   "status": "proved",
   "theorems": [
    "C117_success",
    "C117_never_worse",
    "C117_preconditioner",
    "C117_system",
    "C117_one_iteration",
    "C117_update",
    "C117_line_search",
    "C117_dispatch",
    "C117_rest_refuted",
    "C117_start_refuted",
    "C117_scaling_refuted",
    "C117_unknown_solver_refuted"
   ],
   "note": "The refutations are the four cases named in brackets in the statement. That the solver does not report failure to its caller is part of the model (the correction is used whatever the flag)."
  },
  {
   "property": "C118",
   "status": "proved",
   "theorems": [
    "C118_returns",
    "C118_viscosity",
    "C118_stress",
    "C118_orientation",
    "C118_yield",
    "C118_work",
    "C118_cell",
    "C118_density_refuted",
    "C118_rest_refuted",
    "C118_no_mechanism_refuted",
    "C118_limits_refuted",
    "C118_tension_refuted",
    "C118_cutoff_refuted",
    "C118_elastic_rate_refuted",
    "C118_vertices"
   ],
   "note": "The refutations are the cases named in brackets in the statement; density, rest, missing mechanism and limits are proved for all inputs, not for one example."
  },
  {
   "property": "C119",
   "status": "proved",
   "theorems": [
    "C119_complete",
    "C119_check",
    "C119_unchecked_refuted",
    "C119_fix_refuted"
   ],
   "note": "C119_unchecked_refuted holds for every incomplete set-up: the call of the check is commented out (Main_DOODZ.c 78). C119_fix_refuted: the check does not know FixTemperature."
  },
  {
   "property": "C120",
   "status": "proved",
   "theorems": [
    "C120_temperature",
    "C120_no_function",
    "C120_composition_sides",
    "C120_composition_air_refuted",
    "C120_fixed_refuted"
   ],
   "note": "C120_composition_air_refuted holds for all grids and flags: BCc.type is never assigned after its allocation. C120_fixed_refuted: Setup.c 622 reads p_in[0] for all cells."
  },
  {
   "property": "C121",
   "status": "proved",
   "theorems": [
    "C121_solve",
    "C121_answer_exists",
    "C121_balance",
    "C121_one_outcome",
    "C121_fraction",
    "C121_uniform",
    "C121_uniform_lost",
    "C121_unsymmetric_refuted",
    "C121_surface_refuted",
    "C121_zero_flux_refuted"
   ],
   "note": "C121_one_outcome and C121_uniform assume that the fractions are at most one (by C121_fraction this holds if dx <= 2/pi dz). C121_uniform_lost holds for every grid with rock in the east column. C121_unsymmetric_refuted concerns the non-polar branch."
  },
  {
   "property": "C122",
   "status": "proved",
   "theorems": [
    "C122_fine_heights",
    "C122_cartesian_ends",
    "C122_polar_ends"
   ],
   "note": "The heights of the inner nodes are those of SurfModel; a square root of a negative number is a distinct outcome."
  },
  {
   "property": "C123",
   "status": "proved",
   "theorems": [
    "C123_moduli",
    "C123_moduli_between",
    "C123_empty_cell_stops",
    "C123_empty_vertex_refuted",
    "C123_single_phase_refuted",
    "C123_absent_incompressible_refuted"
   ],
   "note": "Infinity and NaN are values of the model (without sign). C123_empty_vertex_refuted, C123_single_phase_refuted and C123_absent_incompressible_refuted show what happens without the hypotheses of C123_moduli."
  },
  {
   "property": "C124",
   "status": "proved",
   "theorems": [
    "C124_viscosity",
    "C124_bounds",
    "C124_stops",
    "C124_empty_vertex_refuted"
   ],
   "note": "The viscosity law of one phase (ViscosityConcise, C58-C60, C114, C115) is a parameter. C124_empty_vertex_refuted shows that vertices without material are noticed for the harmonic mean only."
  },
  {
   "property": "C125",
   "status": "proved",
   "theorems": [
    "C125_maps",
    "C125_restores",
    "C125_tie_refuted",
    "C125_no_plasticity_refuted"
   ],
   "note": "The local rheology (ViscosityConcise) is a parameter; see C61_deformation_map_refuted for the viscosity it returns with the arguments of this call. C125_tie_refuted: entries without a fastest mechanism are inherited or indeterminate. C125_no_plasticity_refuted: codes 5 and 7 cannot occur."
  },
  {
   "property": "C126",
   "status": "proved",
   "theorems": [
    "C126_roundtrip",
    "C126_stops",
    "C126_other_number_refuted",
    "C126_phase_refuted"
   ],
   "note": "The file is modelled byte by byte. C126_other_number_refuted: files of larger runs are read without complaint. C126_phase_refuted: no check of the phases that were read."
  },
  {
   "property": "C127",
   "status": "proved",
   "theorems": [
    "C127_triplets",
    "C127_empty_refuted",
    "C127_to_cholmod",
    "C127_too_small",
    "C127_pressure_block",
    "C127_column_format_refuted",
    "C127_vectors"
   ],
   "note": "cs_compress and cholmod_allocate_sparse are library code; the first is not modelled, of the second only the sizes. C127_empty_refuted and C127_column_format_refuted concern inputs the solver does not produce."
  },
  {
   "property": "C128",
   "status": "proved",
   "theorems": [
    "C128_norm",
    "C128_extremes",
    "C128_inactive_refuted",
    "C128_sum"
   ],
   "note": "One thread for MinMaxArrayPart (see C24 for the parallel reduction). C128_inactive_refuted: marker 0 is counted whatever its phase."
  },
  {
   "property": "C129",
   "status": "proved",
   "theorems": [
    "C129_momentum",
    "C129_continuity"
   ],
   "note": "Same equation numbers as C28, C29 and C95."
  },
  {
   "property": "C130",
   "status": "proved",
   "theorems": [
    "C130_numbers",
    "C130_inverse"
   ],
   "note": "Array sizes as allocated by GridAlloc."
  }
 ]
}