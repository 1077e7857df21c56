# Formal model of MDOODZ 7.0 — design

Source under study: `/repo` (tduretz/MDOODZ7.0), C code in `/repo/MDLIB`.
Prover: Coq/Rocq 8.16.1. All files in `rocq/theories`.

## 1. Layout

For every area `X` there are three files:

* `XModel.v`  – Gallina transcription of the C functions (definitions only, each
  with a comment giving file and lines in `/repo/MDLIB` and what is simplified);
* `XProofs.v` – an independent small specification (section "Specification") and lemmas;
* `XProps.v`  – nothing but the property theorems, each closed by `exact lemma`,
  followed by `Print Assumptions`, plus an `Example` showing that the hypotheses
  are met by a concrete non-trivial case.

A property that the unchanged code violates gets a theorem `..._refuted`
(existence of a witness) beside the strongest true statement.

## 2. How each C feature is modelled

* `int` indices and counters: `Z`/`nat`, unbounded. Overflow of `int` is not
  modelled except where stated.
* `double`: exact real numbers `R` (or, where no analysis is required, an
  arbitrary type / `Z` / `Q`). Rounding, NaN and infinities are **not** modelled
  unless a definition says so.
* Arrays: total functions from index to value, or lists with explicit bounds.
  Where memory safety is the subject, an access outside the allocated range is a
  distinct outcome (`None`/`UB`), never a default value.
* Loops: structural recursion / folds over index lists; `while` loops get fuel
  and an explicit out-of-fuel outcome that the theorem excludes.
* OpenMP: a schedule is an arbitrary partition of the iteration space plus an
  arbitrary merge order.
* Files: byte lists; the file system is a finite map from names to contents;
  a crash is any prefix of the sequence of file-system operations.
* `exit()`: explicit `Stop` outcome.

## 3. Trusted base

* Coq's kernel (checked again with `coqchk`), and the axioms that
  `Print Assumptions` lists (only the axioms of Coq's own real-number library:
  `ClassicalDedekindReals.sig_forall_dec`, `ClassicalDedekindReals.sig_not_dec`,
  `FunctionalExtensionality.functional_extensionality_dep`, and for some theorems
  `Classical_Prop.classic`). The index/bytes/schedule theorems are axiom free.
  The per-theorem list is in section 5.
* The transcription of the C code into Gallina (not machine checked).
* The listed simplifications, and the C library (`fgets`, `strcmp`, `atoi`,
  `fread`, `fwrite`, `rename`) behaving as described in the model comments.

## 4. Plan per property

| id | model | proof idea |
|----|-------|------------|
| C01 | byte-level model of `fgets`/`feof` loop, key extraction up to first space, `=` search; `atoi`/`atof` left as arbitrary function of the value text | induction over the file; spec = first line in list of lines |
| C02 | same; state = file position | lookup does not depend on position; insertion of other-key lines invisible |
| C03 | same model with explicit outcome for reading past the text | iff characterisation |
| C04 | line-based model of the block search, including missing phase stop | spec by splitting file into blocks |
| C05 | prefix-matching reader with position | spec + witness for `import_file`/`import_files_dir` |
| C06 | record of switches, rules transcribed in order | case analysis, idempotence, frame |
| C07 | units as reals | dimension vectors: each unit = eta^a L^b V^c T^d with exponents from dimension algebra |
| C08 | writer and reader as two independent sequences of field codes over byte/word lists with the conditional sections | generic parser/printer round-trip lemma |
| C09 | same model | witness that old stresses are not restored, exact mapping |
| C10 | same model with two Nt | exact misalignment, prefix unaffected |
| C11 | file-system traces, crash = prefix | invariant over outputs |
| C12 | same | closed form of directory content |
| C13 | step counter state machine | list of steps = seq; concatenation |
| C14 | state machine with oracle outcomes | lexicographic measure |
| C15 | flag with `Undef` value | reachability witness and safe conditions |
| C16 | clock state machine | invariant; drift formula |
| C17 | real arithmetic with ceiling | `up`/`Int_part` lemmas |
| C18 | folds of max/min over both grids, clamps in order | fold lemmas + lra |
| C19 | index ranges | arithmetic |
| C20 | allocation-state machine | invariant; witness |
| C21 | index tables built by the double loop | div/mod |
| C22 | averaging stencils incl. ghost expansion | list/function induction, lra |
| C23 | coordinate loops | induction |
| C24 | per-thread fold + merge in arbitrary order | permutation invariance of min/max |
| C25 | block bounds | div/mod arithmetic |
| C26 | per-thread row buffers, prefix-sum merge | list concatenation |
| C27 | buffer bound arithmetic | inequality + numeric witness |
| C28 | numbering loops with counters | injectivity by induction on loop |
| C29 | scatter loops with predicates | predicate equivalence on documented codes |
| C30 | CSR matrix-vector product over R | algebra over sums |
| C31 | the ApplyBC loops | frame + postcondition, corner witness |
| C32 | rows, right-hand-side moves and residual of x, z and continuity equations with all boundary kinds | difference of stresses = row times increment, by cases on the boundary kind and `field` |
| C33 | same, global sums over the grid | summation by parts to a sum over cells and vertices |
| C34 | operator, stored stress and effective strain rate of one material point; markers around a node as weighted list | matrix identity with the rotated layered law by ring modulo the unit length of n, convexity for mixtures, Cauchy-Schwarz for the determinant |
| C35 | LineSearchModel: interval, six trials, argmin scans, acceptance tests, uninitialised index as Undefined; residual = arbitrary function of the step | scan = minimum; case analysis of the acceptance tests; witnesses for the uninitialised read and for an accepted step with larger total residual |
| C36 | position decision chain of SetBCs for the Vx, Vz and P grids (SideModel.v) | iff per side, case analysis; one-column P grid refuted |
| C37 | four template functions (SideModel.v) | sums over rows and columns |
| C38 | correction loops, smoothing sweeps and write-back as executed, out-of-range writes as outcome (SideModel.v) | sums by induction; witnesses |
| C39 | smoothing sweep on arrays (SideModel.v) | convex combination, induction over sweeps |
| C40 | shape formulas with cos/sin over R (SetupModel.v) | algebra modulo cos^2+sin^2=1; witness |
| C41 | order of table look-up and phase check with out-of-bounds as outcome (SetupModel.v) | case analysis, witnesses |
| C42 | character scan and list of buffer accesses (SetupModel.v) | induction over the name |
| C43 | isoutPart/isout with arbitrary visiting order of the markers (AdvModel.v) | case analysis, permutation |
| C44 | RogerGuntherII over an arbitrary velocity read-out (AdvModel.v) | equals an independently defined classical scheme; field; witnesses |
| C45 | PureShearALE side averages and sub-steps in the order of Main (AdvModel.v) | induction over sub-steps and steps; witness with velocities from the grid |
| C46 | reader of the checkpoint over the complete memory image | frame lemma, witness |
| C47 | allocation flags over multi-step histories | invariant |
| C48 | director initialisation and update, local rheology rotation | normalisation lemmas, trigonometric identities, witness |
| C49 | stress rotation options and the phase that calls them, with the marker-to-grid routine it calls | algebra; the rotation buffer is never written |
| C50 | P2Mastah with both stencils, four node families, three averages, threads | nearest-node rounding, tensor product of 1D candidates = hat function, convexity |
| C51 | V2P for both components with tags, clamping and correction (AdvModel.v) | congruence on in-range entries; convex combinations |
| C52 | FlagModel: CellFlagging, MarkerChainPolyFit, TopoFun, SurfaceDensityCorrection (centres), pressure position of SetBCs | exact characterisation of cells against heights at column centres; tags of faces and vertices derived from it; mirror, weight, refutations by witness |
| C53 | SurfModel: InterpTopoPart2Grid, grid_topo | weighted-mean bounds; polyline unique and equal to the fit |
| C54 | SurfModel: RemeshMarkerChain modes 1 and 2 | loop invariant over half columns |
| C55 | SurfModel: DiffuseAlongTopography | iteration invariants; explicit heat step as specification |
| C56 | SurfModel: CleanUpSurfaceParticles, AddPartSed | case analysis on column; list membership |
| C57 | SurfModel: sub_step (order of calls in Main), KeepZeroMeanTopo | induction over sub-steps |
| C58 | RheoModel: the five creep laws, elastic rate, residual, Newton step, 20-iteration loop, starting value as minimum of isolated viscosities, failure exit | Newton on a convex decreasing power sum: Bernoulli inequality brackets each step from above, quadratic/linear contraction bound for exponents <= 8 (RheoProofs) |
| C59 | RheoModel: yield test, return-mapping loop with fuel 20, tension fallback | closed form of first evaluation; invariants of the loop for the refutations |
| C60 | RheoModel: w_tot, w_el, w_diss | algebra from C58 |
| C61 | MatGridModel: sum over active phases, three averages, limiter, two-phase mixture, kinetics | weighted means; AM-GM via exp_ineq1_le |
| C62 | MatGridModel: soft_linear, soft_smooth (any decreasing erfc in (0,2)) | case analysis; monotonicity |
| C63 | MatGridModel: table1, table2 with bounds-checked reads | ceiling arithmetic of the west index; convexity |
| C64 | MatGridModel: centre and vertex strain rates with flags | polynomial identities; derivatives from the definition |
| C65 | FlowModel: the tables as data, scaling, correction factor, prefactors | FlowProps: closed form of the prefactor; scale factors cancel; three claims refuted |
| C66 | FlowModel: Huet coefficients | FlowProps: convexity of the weights; pressure dependence refuted |
| C67 | FlowModel + RheoModel | UnitProps: simulation relation between the iterations in two unit systems |
| C68 | DiffModel: numbering, rows, right-hand side, lower-triangle system, extraction | DiffCore: flux form of each side, symmetry; LinSolve: Gaussian elimination for existence; DiffProps |
| C69 | DiffModel | discrete comparison principle at the cell of smallest difference; induction over solves |
| C70 | DiffModel | column sums by symmetry; quadratic form as sum of squares; list induction for storage |
| C71 | two C lines on Flocq binary64 | x/10 is a multiple of 1/5 unit, so the error is at most 2/5 unit; tie at 10 goes up |
| C72 | Interp_Grid2P and Interp_Grid2P_centroids2 as functions of tags, field, position with outcome Val/Exit/Undefined (ItpModel) | bilinear weights in [0,1], four-corner convexity, explicit counterexample |
| C73 | Centers2Particle, Vertices2Particle (ItpModel) | renormalised weights; own cell has weight at least 1/4 |
| C74 | Interp_Grid2P_strain, all nine branches (ItpModel) | nine-way split; counterexample family in t |
| C75 | CountPartCell with reseed_mode 1: fine cells, counts, recycling list, 5x5 block, closest marker, capacity; freed counters explicit (ReseedModel) | loop invariant over the cells with slot function; counts as list lengths; example with recycled and new slot |
| C76 | ParticleInflowCheck flags 0 and 1 with slot choice, growing loop bound, uninitialised index (MarkerModel) | loop invariant; copies are never copied again; counterexamples for the full array |
| C77 | PutPartInBox with noise, surface lines and isoutPart; array size (MarkerModel) | bijection sites to tiles, uniqueness by distance |
| C78 | TransmutateMarkers with table bounds (MarkerModel) | induction over any loop order |
| C79 | MeltModel: PartialMelting, MeltFractionGrid, marker melt fraction | case analysis on laws, monotonicity of the exponential interpolation |
| C80 | MeltModel: UpdateAlphaCp, mass source | finite difference of a monotone fraction is non-negative |
| C81 | FStrainModel: AccumulatedStrainII, UpdateMaxPT | interpolation is linear and a weighted mean inside the hull of the centres |
| C82 | FStrainModel: DeformationGradient with the grid gradients | staggered index arithmetic, C72 exactness, induction on steps |
| C83 | FStrainModel: FiniteStrainAspectRatio | quadratic form bounds, uniqueness of the principal stretches |
| C84 | SubgridModel: marker updates, with P2G and Itp models for the two interpolations | linearity and bounds of both interpolations, induction on the marker list |
| C85 | SubgridModel: option dispatch and relaxation times | field arithmetic on ScaleMe |
| C86 | OutModel: tables of all datasets generated from the writer, allocation sizes, binary32/64 conversions | table check by computation, Flocq relative error |
| C87 | VizModel: the loop over markers with the best weight per picture cell | loop invariant: best marker so far |
| C88 | SeriesModel: reduction, division, logging and order of updates in a step | permutation invariance of sums, induction over steps |
| C89 | SaveModel: multiply/divide and multiply/multiply in binary64 | nearest-value argument with tie to even; relative error |
| C90 | SolverModel: one inner step, cycle, restarts and stop of kspgcr over arbitrary matrix and preconditioner | residual identity and orthogonality invariants; projection argument for minimality; Elman bound |
| C91 | SolverModel: blocks, Schur complement and the Powell-Hestenes iteration | algebra of the two updates; energy argument with transpose and definiteness for contraction |
| C92 | SolverModel: stopping test over finite numbers, infinities and NaN | maximum of a list; case analysis; explicit residual histories for the refutations |
| C93 | SolverModel: loop that fills the pressure diagonals, default and other solvers | induction over any order of cells; concrete air patterns for the refutations |
| C94 | SolverModel: detect | fold over cells |
| C95 | VecModel: BuildInitialSolutions, BackToSolutionVector, DecompressCSRtoTriplets | counting lemmas of C28; loop invariants |
| C96 | Density correction of surface cells, downward sweep and confining pressure of ComputeLithostaticPressure (GravModel) | loop invariants over flat indices give the recurrence; sums by induction; counterexamples for closed top and overburden |
| C97 | Body forces of EvaluateRHS; residuals of StokesModel | the discrete gradient of C96 equals the force at every Vz node; row constancy by induction for the x direction |
| C98 | Components of gravity for polar = 1 | sin and cos of atan by cases on the quadrant |
| C99 | UpdateDensity for one cell | induction on the list of phases |
| C100 | SeedModel: fine cells with two ghost layers, counts, lists, order of neighbours, AddPartCell2, FindClosestPhase2, new list, slots | new markers = map over the depleted cells in loop order; slot sequence injective; invariant over the placement with counts |
| C101 | JacModel: phase loop with weights, two-sided differences, rows of the tangent operator | central differences converge to the slope of the phase sum; derivative of the three averages; product rule |
| C102 | JacModel: all coefficients and masks of the x and z Newton rows, vertex interpolation, strain rates, residual for an arbitrary stress law | changes along a path of fields are linear in the increment; generic identity for each row (JacX, JacZ), then the masks under each template (JacT); witnesses on 3 x 2 cells (JacNeg) |
| C103 | MemModel | Each pointer variable is followed on its own (a local run); the whole run is defined exactly when all local runs are. The names are checked by computation for all option combinations, tables of pointers by lemmas over the number of phases. |
| C104 | MemModel, BreakpointModel | The block of each checkpoint object after startup is computed from the allocation statements and compared with the extents of the reads, writes and scaling loops; the hypotheses of C08 follow. |
| C105 | InitModel, SurfModel | The weights of the 23 markers of a column are computed and are symmetric about its centre; bounds follow from C53. |
| C106 | InitModel, BCModel | Each loop writes its own node, so the value of a node is a closed formula; ApplyBC from C31. |
| C107 | InitModel, TimeStepModel | Fold invariant for the minimum; composed with C18. |
| C108 | InitModel | Row-by-row invariant of the double loop over nodes for columns with air above rock; interval arithmetic for the interpolation. |
| C109 | PhaseGridModel, MatGridModel, AnisoModel | The double loops collapse to one loop over nodes; one node is a sum over phases; weighted means are bounded. |
| C110 | PhaseGridModel, MatGridModel | Each iteration writes its own node; per-phase softening from C62. |
| C111 | PhaseGridModel, SubgridModel, ItpModel | Loop invariant over markers; C84 for the increments. |
| C112 | PDModel, MatGridModel | The look-up of C63 on arrays whose unread entries are None; scaling commutes with the index and weight of the look-up. |
| C113 | PDModel, MatGridModel | One smoothing step in closed form, invariants over the steps: maximum principle, sign and size of the differences. |
| C114 | GSModel, RheoModel | The grain size eliminated: strain rates are a sum of powers of the viscosity with exponents of at least one, so the lemmas of C58 on such sums apply; iterates stay positive because the derivative without the grain-size term dominates S/x. The refutation follows the twenty iterates. |
| C115 | GSModel, RheoModel | Exponential law solved for the time; convex combination. |
| C116 | DirectModel, SolverModel | One update equals the iteration of C91 with W = 1 - D D1 and the velocity solve written as a correction; then the lemmas of C91. Refutations are systems with one or two unknowns followed for two updates. |
| C117 | DirectModel, SolverModel, OptionsModel | The invariants of C90 hold for every restart length; block elimination for the preconditioner. |
| C118 | AnisoViscModel, AnisoModel, RheoModel | The loop is the Newton iteration of C58 with the update before the test; the strain-rate invariant in the layer frame is shown to be that of the unrotated tensor, so the lemmas of C58-C60 apply. The stress is rotated back with a rotation written independently of the code. |
| C119 | CallbackModel | The pointers used by a run as a list; a run goes through if all are given. |
| C120 | CallbackModel | Every store of the loops as a list of writes; each entry of the frame has a single cell that writes to it (extended index is injective), so the result is that cell's last write. |
| C121 | PolarModel | dot(polar row) = dot(row of DiffModel) + side terms; A(A'y) = (AA')y; kernel of A trivial by comparison at the cell with the smallest difference, hence kernel of A' and AA' trivial. |
| C122 | TopoGridModel | Invariant of the loop with the counter k_fine; quarter points of a straight line. |
| C123 | ViscGridModel | Loop invariants for cells, vertices and row ends; psum of non-negative terms is zero exactly if all fractions are. |
| C124 | ViscGridModel | Sums over phases by induction; fractions are 0 or above 1e-13, so the skipped phases do not contribute; loop invariant over nodes. |
| C125 | DefMapModel | The triple loop is a fold over a duplicate-free list of points whose flat indices differ; values written at a point survive; the mechanism variable is carried along the list and from phase to phase. |
| C126 | MarkFileModel | Base-256 representation by induction; fread of what fwrite wrote, followed by anything, by induction over the elements. |
| C127 | SparseConvModel | Every position of the array belongs to one row; the sum over all triplets splits into the row and terms that are zero. Copies by loop invariants with array bounds. |
| C128 | SparseConvModel | Sums of squares by induction; invariant of the running extremes. |
| C129 | RHSModel | Counting lemmas of the equation numbering; both selections agree on documented types. |
| C130 | RHSModel | Invariants of the two nested loops. |

## 5. Axioms per theorem

Obtained with `Print Assumptions` for every theorem named in `MANIFEST.json`.

**Closed under the global context (no axioms):** C01_integer_lookup, C01_real_lookup, C01_integer_value, C01_lookup_total, C01_lookup_deterministic, C01_last_line_refuted, C02_other_lines_irrelevant, C02_real_lookup_after_any_calls, C02_integer_lookup_after_any_calls, C02_material_lookup_after_any_calls, C02_swap_lines, C03_no_UB_on_spaced_files, C03_first_line_without_space_is_UB, C03_leading_blank_line_refuted, C04_material_lookup, C04_missing_phase_stops, C04_other_blocks_irrelevant, C04_empty_last_block_refuted, C05_string_lookup_hit, C05_string_lookup_miss, C05_import_file_before_dir_ignored, C05_prefix_collision_refuted, C06_switches_coherent, C06_stops_iff_bad_stencil, C06_coherent_input_unchanged, C06_user_values_kept, C08_restart_equals_continuing_run, C08_exact_restore, C08_clock_restored_after_rounding, C08_bit_exact_clock_refuted, C09_old_stresses_go_to_current_stresses, C09_old_stresses_restored_refuted, C10_sections_before_series, C10_series_read_from_shifted_offsets, C10_series_restored_refuted, C11_last_completed_survives, C11_restart_point_survives, C11_any_number_of_crashes, C11_newest_name_is_newest_refuted, C11_single_file_survives_refuted, C12_exact_files, C12_at_most_three_files, C13_restarts_equal_direct_run, C13_direct_run, C13_restart_at_zero_is_fresh, C13_single_file_step_checked_refuted, C14_terminates, C14_fuel_irrelevant, C14_meaning_of_ends, C14_converged_step_is_accepted_refuted, C14_accepted_before_limit, C15_switching_runs_are_determined, C15_first_step_is_determined, C15_always_determined_refuted, C19_exact_reads, C19_reads_in_range_refuted, C19_velocity_reads_in_range, C20_mechanical_runs_are_balanced, C20_without_mechanics_refuted, C21_numbering_is_bijective, C21_grid_sizes, C25_partition_covers_once, C25_blocks_are_the_serial_loop, C26_rhs_thread_count_independent, C27_velocity_block_fits, C27_vertical_velocity_block_fits, C27_gradient_and_divergence_blocks_fit, C27_buffer_overrun_refuted, C28_numbering_is_a_bijection, C28_numbers_follow_node_order, C29_predicates_agree_exactly_on_documented_codes, C29_undocumented_code_reads_out_of_range_refuted, C36_position_tells_the_sides, C36_velocity_positions, C36_pressure_position, C36_single_column_refuted, C41_defined_phases_accepted, C41_accepted_phases, C41_undefined_phase_used_refuted, C41_too_large_stops, C42_stem, C42_buffer_overrun_refuted, C42_name_when_followed_by_zero, C46_unsaved_fields_rescaled, C47_jacobian_storage_exists, C47_other_newton_values_refuted, C56_sediment_phase, C86_names, C86_one_file_per_step, C86_sorted, C86_sorted_refuted, C86_source, C92_zero_iterations_refuted, C95_solution_goes_back, C95_guess, C95_guess_vertical_refuted, C95_guess_bounds_refuted, C95_guess_bounds, C95_rows, C96_surface_bounds, C96_surface_bounds_refuted, C42_bytes_touched, C15_switch_exactly_when, C15_switch_available_iff, C103_run_undefined_iff_literal, C103_only_stress_is_left, C103_startup_defined, C103_every_block_is_given_back_refuted, C104_checkpoint_fits, C104_restart_defined, C104_fits_for_any_number_of_markers_refuted, C104_size_from_name, C108_vx_of_the_surface, C108_vz_below_the_surface, C108_reads_outside_refuted, C14_stops_after_iterations_iff, C111_grain_size, C112_checked, C119_complete, C119_check, C119_unchecked_refuted, C119_fix_refuted, C120_temperature, C120_no_function, C120_composition_sides, C120_composition_air_refuted, C126_roundtrip, C126_stops, C126_other_number_refuted, C126_phase_refuted, C127_too_small, C129_momentum, C129_continuity, C130_numbers, C130_inverse

**`ClassicalDedekindReals.sig_forall_dec`:** C26_matrix_contents, C26_thread_count_independent, C26_rows_are_contiguous, C29_update_touches_only_unknowns, C30_scale_vectors_agree, C37_simple_shear_conserves_mass, C37_templates_accepted, C117_dispatch, C127_empty_refuted, C127_to_cholmod, C127_vectors

**`ClassicalDedekindReals.sig_forall_dec`, `FunctionalExtensionality.functional_extensionality_dep`:** C07_input_divisors_coherent, C07_derived_units_coherent, C07_momentum_form, C07_energy_form, C16_clock_offset, C16_clock_is_sum_of_steps, C16_clock_ahead_after_repeat, C16_clock_is_sum_of_steps_refuted, C17_substeps_cover_solve_step, C17_courant_respected_by_substeps, C17_fixed_step_respects_courant_refuted, C18_step_within_user_limits, C18_courant_and_growth_limits, C18_step_is_as_long_as_allowed, C18_no_motion_uses_initial_step, C18_fixed_step, C22_vertex_average, C22_vertex_bounds, C22_air_deficit, C22_linear_fields_exact, C22_centre_average, C22_centre_bounds, C22_constants_next_to_air_refuted, C23_coordinates_tile_the_domain, C23_initial_coordinates, C23_writes_in_range, C24_extrema_attained_and_bounding, C24_schedule_independent, C24_not_finite_stops, C24_tagged_extrema, C24_tagged_first_entry_in_air_refuted, C29_gather_then_scatter_is_identity, C30_scaled_system_is_equivalent, C30_every_solution_arises, C30_newton_scale_of_B_agrees_refuted, C31_vz_ghosts, C31_vx_ghosts, C31_after_solution_update, C31_stale_corner_refuted, C32_momentum_rows_linearise_residual, C32_continuity_rows_linearise_residual, C32_exact_solve_annihilates_residual, C32_prescribed_pressure_refuted, C33_columns_are_unknowns_x, C33_columns_are_unknowns_z, C33_columns_are_unknowns_c, C33_unknown_neighbours_kept, C33_velocity_block_symmetric, C33_velocity_block_dissipates, C33_gradient_is_minus_transposed_divergence, C33_translation_exerts_no_force, C33_stress_boundary_refuted, C33_prescribed_pressure_refuted, C34_operator_is_rotated_layered_law, C34_operator_of_marker_mixture, C34_operator_symmetric, C34_factor_one_or_switched_off_is_isotropic, C34_deviatoric_stress, C34_dissipation, C34_grid_stress_is_operator, C34_effective_strain_rate_carries_old_stress, C35_trial_steps, C36_callback_results_stored, C37_pure_shear_conserves_mass, C37_template_flows, C38_side_corrected_sum, C38_south_corrected_sum, C38_side_balance_refuted, C38_sweep_changes_flux_by_end_slopes, C38_zero_size_buffer_refuted, C38_south_balance_refuted, C39_smoothing_maximum_principle, C39_balanced_side_within_corrected_range, C43_closed_domain, C43_periodic_domain, C43_large_overshoot_refuted, C43_all_markers_any_schedule, C44_classical_scheme, C44_linear_flow, C44_inactive_stay_inactive, C44_lost_at_first_stage, C45_one_solve_step, C45_many_steps, C45_equal_steps, C45_air_top_stays, C45_side_markers_lost, C45_side_markers_lost_refuted, C50_thread_count_irrelevant, C50_periodic_vertices_refuted, C51_reads_existing_nodes, C51_linear_fields_exact, C51_maximum_principle, C51_no_air_velocity, C51_vz_air_velocity_refuted, C52_cell_tags, C52_exact_cells, C52_fluid_never_touches_air, C52_surface_position_never_reported, C52_velocities, C52_interior_vertices, C52_cells_mirror, C52_side_vertices_mirror_refuted, C52_density_weight, C52_density_weight_refuted, C52_top_line_read_refuted, C53_column_exists, C53_west_side_refuted, C53_heights_within_chain, C53_uniform_motion, C53_empty_columns_refuted, C53_surface_is_the_broken_line, C54_remesh, C54_room_suffices, C54_recycled_markers_ignored_refuted, C54_chain_on_surface, C55_diffusion_steps, C55_diffusivity_refuted, C55_diffusion_stable, C55_sedimentation, C55_overfill_refuted, C55_valley_incision, C56_cleanup, C56_sediments, C56_deformation_refuted, C56_capacity_refuted, C57_total_update, C57_incremental_one_sub_step, C57_increments_lost_refuted, C57_zero_mean, C57_zero_mean_reads_refuted, C60_elastic_work_refuted, C61_deformation_map_refuted, C61_reaction_progress, C61_kinetic_density_between, C62_linear_from_zero, C62_linear_outside, C62_delayed_onset_refuted, C62_negative_friction_refuted, C62_smooth, C63_table1_linear, C63_table2_bilinear, C63_outside_clamped, C63_table2_between, C63_lowest_pressure_refuted, C63_lowest_temperature_refuted, C63_edge_value_refuted, C64_derivatives, C64_quadratic_fields_exact, C64_rigid_motion_invariance, C64_deviatoric, C64_shear_below_surface_refuted, C64_stale_rotation_refuted, C65_data_base, C68_heat_balance, C68_periodic_ends_refuted, C68_bottom_flux_refuted, C69_no_undershoot, C69_no_overshoot, C69_all_steps_bounded, C69_order_kept, C70_heat_conserved, C70_positive_definite, C70_storage, C70_periodic_air_refuted, C72_centres_bounded, C72_vertices_bounded, C72_centres_linear, C72_vertices_linear, C72_periodic_ends, C72_inactive_zero, C72_air_column_refuted, C73_new_centres_bounded, C73_new_vertices_bounded, C73_same_without_air, C73_no_rock_gives_zero, C74_strain_bounded, C74_interior_bounded, C74_surface_refuted, C76_inflow, C76_full_array_refuted, C76_overwrite_refuted, C77_one_marker_per_tile, C77_number, C77_noise_above_surface_refuted, C78_transmutation, C78_last_marker_refuted, C78_inactive_marker_refuted, C79_marker_fraction, C79_marker_update, C80_volume_source, C81_total_is_sum, C81_strain_grows, C81_uniform, C81_side_refuted, C81_peaks, C82_material_line, C82_homogeneous, C82_simple_shear, C82_area, C82_area_refuted, C83_unique, C84_plain, C84_plain_still, C84_melt_range, C84_melt_exact, C84_grain_size_forgotten_refuted, C85_units, C85_pressure_units_refuted, C86_params, C87_nearest_marker, C87_pure_cell, C87_normal_map_refuted, C87_stray_read, C87_stray_read_refuted, C88_one_entry_per_step, C88_units, C88_heat, C88_work_refuted, C88_shortening_lags, C88_shortening_refuted, C91_momentum, C91_compressible, C91_divergence_falls, C91_rate, C91_solution, C92_accepted, C92_accepted_closed, C92_exit, C92_early, C92_signed_refuted, C92_negative_refuted, C92_nan_refuted, C92_momentum_refuted, C93_entries, C93_consistent, C93_other_solvers, C93_air_refuted, C93_bounds_refuted, C94_marked, C94_sticky_refuted, C96_gradient, C96_column, C96_air, C96_deeper, C96_closed_top, C96_closed_top_refuted, C96_overburden, C96_topography, C96_overburden_refuted, C99_between, C99_average, C99_air, C101_tangent_operator_anisotropic, C101_perturbation_positive, C102_newton_row_x, C102_newton_row_z, C102_wall_pressure_refuted, C102_no_slip_side_refuted, C102_stress_boundary_refuted, C102_beside_air_refuted, C50_lateral_vertex_columns_agree, C38_unchanged_iff_within_a_millionth, C105_chain_covers_every_column, C105_heights_within_given_surface, C105_plane_surface_reproduced, C105_default_surface, C105_markers_ask_the_user_at_their_position, C105_sides_of_a_slope_refuted, C106_velocity_at_the_start, C106_divergence_at_the_start, C106_boundary_conditions_hold, C106_pressure_at_the_start, C106_pure_divergence_refuted, C106_air_pressure_refuted, C107_first_step_resolves_relaxation, C107_other_runs_keep_the_given_step, C107_first_solution_step, C107_start_at_rest_refuted, C108_chain_velocity, C108_vz_is_that_of_the_surface_refuted, C39_rows_smoothed, C109_saturates, C110_values, C110_air, C110_between, C110_between_vertices, C110_default_strains_refuted, C111_composition_range, C111_composition_still, C111_composition_follows, C112_units, C112_between, C112_short_file_refuted, C113_bounds, C113_monotone, C113_linear, C113_gradient, C113_units, C113_between, C113_short_file_refuted, C115_reader, C116_momentum, C116_same_iteration, C116_continuity, C116_rate, C116_fixed_point, C116_factor, C116_accepted, C116_exit, C116_negative_refuted, C116_nan_refuted, C116_unsymmetric_refuted, C116_out_of_plane_refuted, C117_preconditioner, C117_system, C117_update, C117_line_search, C117_scaling_refuted, C117_unknown_solver_refuted, C120_fixed_refuted, C121_solve, C121_unsymmetric_refuted, C122_fine_heights, C123_absent_incompressible_refuted, C127_triplets, C127_pressure_block, C127_column_format_refuted, C128_extremes, C128_inactive_refuted, C128_sum

**`ClassicalDedekindReals.sig_forall_dec`, `ClassicalDedekindReals.sig_not_dec`, `FunctionalExtensionality.functional_extensionality_dep`:** C35_accepted_step_decreases, C35_no_decrease_means_stagnation, C35_six_evaluations, C35_uninitialised_read, C35_uninitialised_read_refuted, C35_best_decrease_is_taken, C35_total_residual_increases_refuted, C40_ellipse_accepted_set, C40_rectangle_accepted_set, C40_shapes_unrotated_or_centred, C40_rotated_shape_misplaced_refuted, C48_director_follows_layer, C48_opposite_directors_equivalent, C48_viscosity_orientation_free, C49_jaumann_increment, C49_analytical_is_opposite_rotation, C49_analytical_sense_refuted, C49_stored_stress_unchanged, C49_stress_rotation_refuted, C75_reseeding, C75_nothing_to_do, C75_isolated_cell_stops, C75_capacity, C75_use_after_free_refuted, C75_topography_ignored, C75_above_surface_refuted, C79_fraction, C79_unknown_law_refuted, C79_cell_fraction, C80_defined, C80_without_melt, C80_surface_test_refuted, C83_ratio, C83_rotation_invariant, C83_rotation_is_no_strain, C83_sediment_refuted, C88_means, C88_mean_range, C88_invariant_dominates, C88_no_rock_refuted, C90_success, C90_never_worse, C90_iterations, C90_minimal, C90_rate, C90_exact_guess_refuted, C90_indefinite_refuted, C100_reseeding, C100_sediment_refuted, C100_nothing_to_do, C100_few_wanted, C100_isolated_cell_stops, C100_new_list_refuted, C100_capacity_refuted, C100_periodic_neighbours_refuted, C112_phase_density, C112_closed_models, C112_index_refuted, C112_unknown_model_refuted, C117_success, C117_never_worse, C117_one_iteration, C117_rest_refuted, C117_start_refuted, C122_cartesian_ends, C122_polar_ends, C128_norm

**`ClassicalDedekindReals.sig_forall_dec`, `Classical_Prop.classic`, `FunctionalExtensionality.functional_extensionality_dep`:** C68_one_outcome, C121_answer_exists

**`ClassicalDedekindReals.sig_forall_dec`, `ClassicalDedekindReals.sig_not_dec`, `Classical_Prop.classic`, `FunctionalExtensionality.functional_extensionality_dep`:** C48_initial_director_unit, C48_rigid_rotation, C48_local_stress_matches_operator_upward_director, C48_downward_director_mirrored_refuted, C49_grid_vorticity_erased, C50_weights_are_hat_functions, C50_value_between_reaching_markers, C50_unreached_node_unchanged, C50_phase_fractions_sum_to_one, C58_effective_viscosity, C58_monotone, C58_budget, C58_gbs_ignored_refuted, C58_gbs_alone_refuted, C59_below_yield, C59_return_mapping, C59_nonnegative, C59_tight_tolerance_refuted, C59_nonlinear_viscoplastic_refuted, C59_tension_refuted, C59_partition_refuted, C60_work_balance, C60_plastic_work_refuted, C61_average_between, C61_within_limits, C61_averages_ordered, C61_phase_order_irrelevant, C61_modulus_between, C61_unknown_average_refuted, C61_mixture_between, C65_law_obeyed, C65_units_irrelevant, C65_frozen_below_zero, C65_monotone, C65_user_law, C65_reference_stress_refuted, C65_linear_law_1_refuted, C65_peierls_obeyed, C65_peierls_tangent, C65_peierls_cancel_refuted, C66_end_members, C66_between, C66_geometric, C66_pressure_dropped_refuted, C67_units_irrelevant, C71_ten_cooling_steps, C79_hotter_melts_more, C79_solid_stays_solid, C79_liquid_stays_liquid, C79_relaxes, C79_nearly_linear, C79_units_refuted, C79_comma_refuted, C79_divided_refuted, C80_heat_capacity, C84_subgrid_agrees, C84_relaxation, C84_scatter_bounded, C84_still_grid_refuted, C85_larger_option_refuted, C85_documented_options, C85_pressure_factor_refuted, C86_content, C86_chunk, C89_changed_at_most_once, C89_change_bound, C89_power_of_two_units, C89_unchanged_refuted, C89_residual_drift_refuted, C89_order, C97_force_z, C97_force_x, C97_rest, C97_rest_surface, C98_radial, C98_lower_half_refuted, C98_horizontal_refuted, C101_tangent_operator, C101_finite_perturbation, C101_average_is_the_rheology_average, C102_tangent_from_finite_differences, C49_values_go_to_their_markers, C109_values, C109_between, C109_periodic_sides, C109_completes, C109_geometric_isotropic_refuted, C114_budget, C114_effective_viscosity, C114_newton, C114_units, C114_data_base, C114_iteration_fails_refuted, C114_piezometers_refuted, C114_needs_dislocation_refuted, C115_time, C115_driving_force, C115_density, C115_units, C115_negative_numbers_refuted, C118_returns, C118_viscosity, C118_stress, C118_orientation, C118_yield, C118_work, C118_cell, C118_density_refuted, C118_rest_refuted, C118_no_mechanism_refuted, C118_limits_refuted, C118_tension_refuted, C118_cutoff_refuted, C118_elastic_rate_refuted, C118_vertices, C121_balance, C121_one_outcome, C121_fraction, C121_uniform, C121_uniform_lost, C121_surface_refuted, C121_zero_flux_refuted, C123_moduli, C123_moduli_between, C123_empty_cell_stops, C123_empty_vertex_refuted, C123_single_phase_refuted, C124_viscosity, C124_bounds, C124_stops, C124_empty_vertex_refuted, C125_maps, C125_restores, C125_tie_refuted, C125_no_plasticity_refuted

## 6. Findings (places where the code violates a property)

### 6.1 Proved

Each line is a theorem about the transcribed code that contradicts the ideal property.

* `C01_last_line_refuted` (ParamProps.v): the unterminated last line "Nx = 51" is not consulted: default returned
* `C03_leading_blank_line_refuted` (ParamProps.v): so a leading blank line makes every lookup undefined
* `C04_empty_last_block_refuted` (ParamProps.v)
* `C05_prefix_collision_refuted` (ParamProps.v): a line of a longer name is accepted for a shorter one
* `C08_bit_exact_clock_refuted` (BreakpointProps.v): in IEEE double arithmetic that round trip is not the identity: dt = 0.1, scaling.t = 3
* `C09_old_stresses_restored_refuted` (BreakpointProps.v): concrete 2x2 grid, no markers, every object 64 zero bytes except the old stress; units equal to one
* `C100_capacity_refuted` (SeedProps.v): The test against the size of the marker arrays never stops the run in time: the marker just past the end is written first.
* `C100_new_list_refuted` (SeedProps.v): The list of new markers is as long as the number of markers. If more are needed the run writes past its end.
* `C100_periodic_neighbours_refuted` (SeedProps.v): Markers across a periodic side are never found: the periodic copies of the cells outside the box hold no marker, and the result is that of a closed box.
* `C100_sediment_refuted` (SeedProps.v): Above the initial surface, where only sediment has come to lie: without a sediment marker nearby the new marker takes a rock phase.
* `C10_series_restored_refuted` (BreakpointProps.v): continuing a run of 1 step to 2 steps: the first entry of the "Short" series is taken from the "Work" series
* `C11_newest_name_is_newest_refuted` (CkptProps.v): The newest-named file is not always the newest checkpoint: there is a crash point where the file with the greatest step number is a complete checkpoint of an older step.
* `C11_single_file_survives_refuted` (CkptProps.v): With the single-file mode a crash can leave no usable checkpoint at all although earlier ones had been completed.
* `C13_single_file_step_checked_refuted` (CkptProps.v): In the single-file mode the step number is not checked against the file: a restart with any step number reads the same file.
* `C14_converged_step_is_accepted_refuted` (NonlinProps.v): In safe mode a step whose iterations met the (relative) tolerances on the last allowed iteration is nevertheless treated as failed: the program stops.
* `C15_always_determined_refuted` (NonlinProps.v): A two-step history in which the uninitialised flag decides: the first step converges before switching, the second wants to switch.
* `C16_clock_is_sum_of_steps_refuted` (NonlinProps.v): Such a repeat happens: safe mode, the first cycle stagnates, the second converges, and the run goes on.
* `C17_fixed_step_respects_courant_refuted` (TimeStepProps.v): With fixed stepping the Courant limit is not enforced at all.
* `C19_reads_in_range_refuted` (TimeStepProps.v)
* `C20_without_mechanics_refuted` (TimeStepProps.v): With the mechanical solve off the very first step releases a pointer that was never set.
* `C22_constants_next_to_air_refuted` (GridProps.v): Constants next to air are not preserved: a witness.
* `C24_tagged_first_entry_in_air_refuted` (ThreadsProps.v): ... and not otherwise: an air entry at index 0 is reported as maximum.
* `C27_buffer_overrun_refuted` (ThreadsProps.v): Box with prescribed normal velocities and free slip, 11 x 101 nodes, 128 threads: the last thread writes past the end of its buffer.
* `C29_undocumented_code_reads_out_of_range_refuted` (NumProps.v): A code outside the documented ones (here the free-surface code 31 on a velocity node) makes the update read the vector at index -1.
* `C30_newton_scale_of_B_agrees_refuted` (NumProps.v): In Newton mode the scale vector of B is not updated, so the copy of the momentum right-hand side held by B differs from that held by A.
* `C31_stale_corner_refuted` (BCProps.v): Called on a field whose periodic sides differ, the corner ghost is stale: the free-slip ghost differs from its neighbour afterwards.
* `C32_prescribed_pressure_refuted` (StokesProps.v): A cell with prescribed pressure (type 0), as set by several published set-ups at the top corners: all other hypotheses hold, yet the row is not the linearisation of the residual.
* `C33_prescribed_pressure_refuted` (StokesProps.v): Beside a cell of prescribed pressure the block of a compressible run is not symmetric.
* `C33_stress_boundary_refuted` (StokesProps.v): At a stress boundary with free tangential slip the block is not symmetric.
* `C35_total_residual_increases_refuted` (LineSearchProps.v): A step can be accepted although it increases the total residual (and the step that leaves it unchanged was tried).
* `C35_uninitialised_read_refuted` (LineSearchProps.v)
* `C36_single_column_refuted` (SideProps.v): In a model one cell wide the single column is the east side, too, but is never reported as such.
* `C38_side_balance_refuted` (SideProps.v): The balance obtained by the correction is destroyed by the smoothing: a column with one inflow value 1 keeps a net flux above 1/2 after "balancing".
* `C38_south_balance_refuted` (SideProps.v): The south side with zero corner values (as in the templates' corners): two thirds of the inflow remain; and with xmax = zmin the smoothed values are not numbers.
* `C38_zero_size_buffer_refuted` (SideProps.v): Values below the tolerance everywhere, with a sum above it: nothing is left to smooth, and the program writes to an allocation of zero bytes.
* `C40_rotated_shape_misplaced_refuted` (SetupProps.v): The requested centre of a shape turned by a quarter turn is not in the shape.
* `C41_undefined_phase_used_refuted` (SetupProps.v): Phases that are not defined but are used as an index without the program being stopped: the first undefined one, negative ones, and - read before the check - arbitrarily large ones.
* `C42_buffer_overrun_refuted` (SetupProps.v): For every file name: the terminator is looked for beyond the allocation, and all five bytes of the suffix are written beyond it.
* `C43_large_overshoot_refuted` (MoveProps.v): A larger overshoot, to either side, leaves an active marker outside.
* `C45_side_markers_lost_refuted` (MoveProps.v): Concrete case: strain 1/10 of the square [-1,1]^2, 3 x 3 vertices, velocities from the grid. The marker starts inside the old domain, the exact flow takes it inside the new one, and it is deactivated.
* `C47_other_newton_values_refuted` (NonlinProps.v): The hypothesis is needed: with [Newton = 2] and the switch from Picard, the Jacobian can be used without storage (if the uninitialised flag is read as "not first", or as "first"; the model stops at the read, so this is exhibited as the indeterminate end of the very first step).
* `C48_downward_director_mirrored_refuted` (AnisoProps.v): ... and mirrored layers when it points down, although the layering is the same as that of the opposite, upward director.
* `C49_analytical_sense_refuted` (AnisoProps.v)
* `C49_stress_rotation_refuted` (AnisoProps.v): With uniform spin and any rotation option the stored stress is therefore wrong.
* `C50_periodic_vertices_refuted` (P2GProps.v): Periodic vertices: the column at xmax is the same place as the column at xmin, one period being (Nx-1) dx; the code wraps by Nx columns. A marker a quarter cell from the western side gives the eastern column the weight 1/6 instead of 5/6, and misses the next column.
* `C51_vz_air_velocity_refuted` (AdvProps.v): Vz: a fluid node above an air node makes it use the velocity of an air node.
* `C52_density_weight_refuted` (FlagProps.v): On a spike between two low columns the weight is not a fraction: here it is 7.5.
* `C52_side_vertices_mirror_refuted` (FlagProps.v): The vertices on the sides do: with heights 62, 80, 20 (spacing 10) the western side vertex of line 5 is active; with the mirrored heights its image is not.
* `C52_top_line_read_refuted` (FlagProps.v): Fluid in the top line of cells makes the correction read past the end of the tags.
* `C53_empty_columns_refuted` (SurfProps.v): Without a marker in the two columns next to a vertex the vertex drops to height zero, wherever the chain is (total update).
* `C53_west_side_refuted` (SurfProps.v): A marker exactly on the western side is inside the box for the remesher but belongs to column -1 here.
* `C54_recycled_markers_ignored_refuted` (SurfProps.v): A new marker that reuses the slot of a marker that left keeps the mark "left": the projection ignores it, so a refilled column may still look empty.
* `C55_diffusivity_refuted` (SurfProps.v): With the diffusivity asked for, the result would differ.
* `C55_overfill_refuted` (SurfProps.v): It can fill a basin above base level.
* `C56_capacity_refuted` (SurfProps.v): They are written past the end of the marker arrays when those are nearly full.
* `C56_deformation_refuted` (SurfProps.v): New markers start from a singular deformation gradient instead of the identity.
* `C57_increments_lost_refuted` (SurfProps.v): But however many sub-steps a time step is cut into, only the last increment is kept: [n] uplifts by [v] raise the surface by [v] instead of [n v].
* `C57_zero_mean_reads_refuted` (SurfProps.v): The same option reads chain entries that were never written.
* `C58_gbs_alone_refuted` (RheoProps.v): With sliding as the only mechanism the iteration divides by zero at every viscosity.
* `C58_gbs_ignored_refuted` (RheoProps.v): Refuted: grain-boundary sliding counts. A material creeping both at constant viscosity 1 and by grain-boundary sliding of the same strength should flow twice as fast; the code returns the viscosity of the first mechanism alone and reports no sliding.
* `C59_nonlinear_viscoplastic_refuted` (RheoProps.v): Refuted: power-law viscoplasticity. With exponent 2 and the default tolerance the returned stress is 9 where strength plus overstress of the returned multiplier is more than 10.
* `C59_partition_refuted` (RheoProps.v): Refuted: the reported strain rates add up at yield. The creep rates are those of the trial stress, so together with the plastic rate they exceed the imposed strain rate by the plastic rate.
* `C59_tension_refuted` (RheoProps.v): Refuted: plasticity only lowers the stress. In tension the stress is reset to a fixed minimum even if the trial stress was lower; the multiplier is then negative.
* `C59_tight_tolerance_refuted` (RheoProps.v): Refuted: a tighter tolerance gives a better answer. For every rate-independent dilatant frictional material whose first evaluation misses the tolerance, the iteration leaves the exact solution it started from: the returned stress is strictly below the strength at the returned pressure.
* `C60_elastic_work_refuted` (RheoProps.v): Refuted: no elastic work without elasticity.
* `C60_plastic_work_refuted` (RheoProps.v): Refuted: the reported total work is the work done at yield. It is lower by the factor returned stress over trial stress.
* `C61_deformation_map_refuted` (MatGridProps.v): Refuted: deformation maps show the viscosity. Without post-processing the returned viscosity is the lower limit whatever the material.
* `C61_unknown_average_refuted` (MatGridProps.v): Refuted: an unknown value of the averaging option is harmless. All numbers from 3 on give viscosity zero (below every limit) without a message.
* `C62_delayed_onset_refuted` (MatGridProps.v): Refuted: softening that starts at a positive strain is a ramp. For every such material the parameter jumps at the onset, and runs past its final value before the end of the interval.
* `C62_negative_friction_refuted` (MatGridProps.v): Friction can so become negative: 30 degrees softening to 15 between strains 1 and 3/2.
* `C63_edge_value_refuted` (TableProps.v): Refuted: beyond its end a table continues with its last value.
* `C63_lowest_pressure_refuted` (TableProps.v): Refuted: every query is safe. At exactly the lowest pressure the entry before the start of the table is read, for every table (at the lowest temperature in the bottom row too).
* `C63_lowest_temperature_refuted` (TableProps.v)
* `C64_shear_below_surface_refuted` (StrainProps.v): Refuted: uniform shear is reported uniformly up to the free surface. A cell of which only some of the four vertices are in the model gets that fraction of the shear strain rate.
* `C64_stale_rotation_refuted` (StrainProps.v): Refuted: the rotation rate in the air is zero. It keeps whatever it was.
* `C65_linear_law_1_refuted` (FlowProps.v): Refuted: linear law 1 sets the linear law. It leaves it unset and replaces the power law of the phase by unscaled numbers.
* `C65_peierls_cancel_refuted` (FlowProps.v): Refuted: a negative Peierls number cancels the correction for axial experiments. The result is the same.
* `C65_reference_stress_refuted` (FlowProps.v): Refuted: the user-defined law 2 has stress [tau0] at strain rate [eps0]. Already for [n = 1], [Q = 0] the viscosity is the reciprocal of the intended one times the viscosity unit of the run, so it depends on the units.
* `C66_pressure_dropped_refuted` (FlowProps.v): Refuted: before any reaction ([X = 0]) the phase behaves as without reaction. The effects of pressure, grain size, water and melt on its strength are dropped, for every law that has them.
* `C68_bottom_flux_refuted` (DiffProps.v): The bottom heat flux is divided by the horizontal spacing: a column one high and two wide, heated from below by a unit flux for a unit time, gains one half instead of one.
* `C68_periodic_ends_refuted` (DiffProps.v): Periodic sides whose end conductivities differ (they are computed from the markers of each side separately): a body of uniform temperature 13, closed and without sources, comes out at 24, 19 and 20.
* `C70_periodic_air_refuted` (DiffProps.v): A periodic line whose last cell is air: the first cell's row refers to the equation -1.
* `C72_air_column_refuted` (ItpProps.v): If the two cells of a column are air, what stands in them reaches markers in the neighbouring rock cell: all rock cells hold 1, the marker lies in a rock cell, and the value is a quarter of the air value plus three quarters.
* `C74_surface_refuted` (ItpProps.v): In the first one and a half columns, next to the surface, the value is divided twice by the weight: with an increment of 1 in all rock cells, a marker in a rock cell, a fraction [t] of a cell above its centre, gets 1/(1-t).
* `C75_above_surface_refuted` (ReseedProps.v): With a free surface, markers are created above the topography.
* `C75_use_after_free_refuted` (ReseedProps.v): Taken literally the routine never adds a marker: before the first one it reads counters that were freed.
* `C76_full_array_refuted` (InflowProps.v): With a full array and nothing to recycle, the first marker to enter is written to an index that was never set.
* `C76_overwrite_refuted` (InflowProps.v): With one slot fewer the last copy overwrites the one before it: nobody is told, and the copy of marker 1 is lost.
* `C77_noise_above_surface_refuted` (LayoutProps.v): With noise, markers are placed above the surface: the surface lies just above the middle of the tile.
* `C78_inactive_marker_refuted` (TransProps.v): A marker that has left the model (phase -1) makes the loop read outside the tables.
* `C78_last_marker_refuted` (TransProps.v): The last marker is due and does not change.
* `C79_comma_refuted` (MeltProps.v): Refuted: law 11 uses the solidus of Schenker et al. (2012). A misplaced comma cuts the last term: rock at 780 K and 100 MPa, above that solidus, has no melt.
* `C79_divided_refuted` (MeltProps.v): Refuted: compressing hot mantle (laws 40 and 41 are meant to share their solidus) does not melt it. With law 41, raising the pressure from 9900 to 10100 MPa at 2400 K does.
* `C79_units_refuted` (MeltProps.v): Refuted: the melt fraction of a given rock at a given temperature and pressure does not depend on the units. Counting temperatures in units of 10^7 K (law 40) instead of kelvins turns a tenth of the way into the melting interval into practically no melt.
* `C79_unknown_law_refuted` (MeltProps.v): Refuted: unknown melting laws are reported. A latent heat that was never set is used.
* `C80_surface_test_refuted` (MeltProps.v): Refuted: the surface test concerns the cell. It looks at cell 0: if that one is in the air, every cell of rock gets heat capacity and expansivity zero (and no volume source).
* `C81_side_refuted` (FStrainProps.v): Refuted: strain never decreases. In the half cell next to a side the increments are extrapolated: with strain rate 0 in the first column and 1 elsewhere a marker at the side loses half of what its neighbours gain, although no rate is negative.
* `C82_area_refuted` (FStrainProps.v): Refuted: area is conserved in incompressible flow. Pure shear loses area, rotation gains it, in every step.
* `C83_sediment_refuted` (FStrainProps.v): Refuted: the ratio is defined for every marker. It is a division by zero for every singular gradient, in particular for all sediment markers (C56), which stay singular whatever deformation follows.
* `C84_grain_size_forgotten_refuted` (SubgridProps.v): Refuted: markers carry their own grain size. Every call replaces it by the grid value at the marker's place: what the marker had, and its rock, do not matter.
* `C84_still_grid_refuted` (SubgridProps.v): Refuted: with the thermal solver off, or the grid temperature unchanged, markers keep their temperature. Two markers in a cell, one warmer and one colder than the grid, are driven together.
* `C85_larger_option_refuted` (SubgridProps.v): Values of the option above 2 switch the update of the marker stresses off, while temperature and pressure are still updated.
* `C85_pressure_factor_refuted` (SubgridProps.v)
* `C85_pressure_units_refuted` (SubgridProps.v): Refuted for pressure: the relaxation time is viscosity divided by compressibility (not multiplied), so the decay exponent is multiplied by the square of the stress unit. The same rock, time step and marker end at different pressures in two systems of units.
* `C86_sorted_refuted` (OutProps.v): From step 100000 on it is not.
* `C87_normal_map_refuted` (VizProps.v): The map at normal resolution does not show the phases: it shows the auxiliary ("dual") phase, which the map at double resolution has under its own name.
* `C87_stray_read_refuted` (VizProps.v): With one marker per cell and fewer than ten cells it is outside the array.
* `C88_no_rock_refuted` (SeriesProps.v): With no rock cell left the series gets NaN.
* `C88_shortening_refuted` (SeriesProps.v)
* `C88_work_refuted` (SeriesProps.v): Two of the series stay zero whatever happens: nothing is ever added to them.
* `C89_residual_drift_refuted` (SaveProps.v): The residual files do worse: a number can be changed again and again.
* `C89_unchanged_refuted` (SaveProps.v): In general the first checkpoint does change numbers.
* `C90_exact_guess_refuted` (SolverProps.v): started from an exact solution the solver destroys it: it divides zero by zero and returns NaN
* `C90_indefinite_refuted` (SolverProps.v): for an operator that is not definite it can break down although the system has a solution and the guess is not it: a quarter turn of the plane
* `C92_momentum_refuted` (StopProps.v): momentum balance is not required of the solution returned at the last iteration
* `C92_nan_refuted` (StopProps.v): residuals that are not numbers are accepted
* `C92_negative_refuted` (StopProps.v): a first iteration with only losses makes the relative test accept anything afterwards
* `C92_signed_refuted` (StopProps.v): the size of the residual is not what is tested: any loss, however large, is accepted next to a small gain
* `C92_zero_iterations_refuted` (StopProps.v): with a maximum of zero iterations the outcome is undefined, whatever the residuals
* `C93_air_refuted` (StopProps.v): with one air cell before them, the compressible cells get wrong entries that depend on the order of the threads: cell 1 is air, cells 2 and 3 are compressible with coefficients 2 and 4
* `C93_bounds_refuted` (StopProps.v): and with more air the access leaves the diagonal
* `C94_sticky_refuted` (StopProps.v): marks are never removed: a cell once compressible stays marked when incompressible material moves in, and its entry in the pressure block is then zero, so that the inverse the solver takes does not exist
* `C95_guess_bounds_refuted` (VecProps.v): and in a tall narrow box it is read from outside the array: the topmost inner node next to the east side
* `C95_guess_vertical_refuted` (VecProps.v): for the vertical velocity it holds an entry of the horizontal velocity instead
* `C96_closed_top_refuted` (GravProps.v): ... and the pressure in the top row is negative.
* `C96_overburden_refuted` (GravProps.v): The true weight of the rock above a centre is not reached.
* `C96_surface_bounds_refuted` (GravProps.v): With rock in the top row it reads past the end.
* `C98_horizontal_refuted` (GravProps.v): and at the height of the origin it is the vertical gravity of the input file.
* `C98_lower_half_refuted` (GravProps.v): Below the origin it points away from it,
* `C102_wall_pressure_refuted` (JacNeg.v): free-slip walls: the rows beside the wall drop the pressure derivative of the wall's shear stress
* `C102_no_slip_side_refuted` (JacNeg.v): no-slip side walls: the rows beside the wall miss the shear strain rate of the wall's vertices
* `C102_stress_boundary_refuted` (JacNeg.v): a boundary node with a prescribed normal stress gets an empty Newton row, the matrix is singular
* `C102_beside_air_refuted` (JacNeg.v): beside an air cell the rows weight the rock cells by 1/3, the fields by 1/4
* `C103_run_undefined_iff_literal` (MemProps.v): a setup-file line that has one of the four string parameters but no equals sign makes ReadChar return the address of a string literal, which RunMDOODZ frees at the end
* `C103_every_block_is_given_back_refuted` (MemProps.v): input.stress, allocated with a free surface, is never freed
* `C105_sides_of_a_slope_refuted` (InitChainProps.v): at the two sides the surface height is copied from the neighbour, so a sloping initial surface is flat in the first and last column
* `C106_pure_divergence_refuted` (InitProps.v): with bkg_strain_rate = 0 and bkg_div_rate <> 0 the initial velocity is zero (GridRoutines.c 359, 381 test only the strain rate)
* `C106_air_pressure_refuted` (InitProps.v): GridRoutines.c 399 joins `!= 30` and `!= 31` with `||`, so the air cells get the background pressure at step 0
* `C107_start_at_rest_refuted` (InitProps.v): the relaxation-time limit is forgotten when nothing moves at the first step; the given dt is used
* `C108_vz_is_that_of_the_surface_refuted` (InitProps.v): FreeSurface.c 1024 reads two rows below the air node instead of one (compare 1012)
* `C108_reads_outside_refuted` (InitProps.v): FreeSurface.c 1011, 1023, 1024 read before the start of the arrays when the rock is at most one row thick
* `C109_geometric_isotropic_refuted` (PhaseGridProps.v): AnisotropyRoutines.c 396, 446 test the sum of logarithms for 0 as a sign of missing particles; with ani_average = 2 every isotropic rock node (factor 1, the default) stops the program
* `C110_default_strains_refuted` (StrengthProps.v): the ramp of C62 at the default strains plss = 1, plse = 2 drives the friction of a cell below zero whenever the final value is less than half the initial one
* `C112_short_file_refuted` (PDProps.v): ReadBin (InputOutput.c 1701-1714) ignores the number of entries read; a short table leaves malloc'd memory unwritten that the density look-up reads
* `C112_index_refuted` (PDProps.v): InputOutput.c 1482-1494 refuses only phase_diagram = -1; indices below -1 or from 10 on are used as they are
* `C112_unknown_model_refuted` (PDProps.v): density_model outside 0..5, or 3 with density_variations not 0 or 1, returns an uninitialised double
* `C113_short_file_refuted` (PDProps.v): InputOutput.c 1420 ignores the number of entries read; missing densities are zero
* `C114_iteration_fails_refuted` (GSProps.v): the first guess of the grain size uses the stress of the elastic element alone (RheologyDensity.c 544), however large G dt is; the Newton iterates then overshoot and the process leaves with exit(0) (279)
* `C114_piezometers_refuted` (GSProps.v): FlowLaws.c 868-880 sets Gpzm = cpzm = Lpzm = 0 for laws 11 and 12; RheologyDensity.c 144 divides 0 by 0
* `C114_needs_dislocation_refuted` (GSProps.v): without dislocation creep RheologyDensity.c 545 divides by eta_pwl = 0
* `C115_negative_numbers_refuted` (GSProps.v): FlowLaws.c takes the absolute value of the law number, RheologyDensity.c 694, 701 compares the signed one
* `C116_negative_refuted`, `C116_nan_refuted` (DirectProps.v): Solvers.c 904, 936 test the signed maximum of the residual, and NaN fails both comparisons
* `C116_unsymmetric_refuted` (DirectProps.v): Solvers.c 833 keeps the lower part of the matrix (not symmetric at a stress boundary, C33) and 904 does not look at the momentum residual
* `C116_out_of_plane_refuted` (DirectProps.v): Solvers.c 801-807 replaces the assembled gradient by -C', which is 3/2 times larger with out_of_plane = 1
* `C117_start_refuted`, `C117_rest_refuted` (KspProps.v): Solvers.c 1682-1740 starts from the current velocity and pressure, not from a zero correction, and measures convergence against that start; an exact start is divided by its zero norm
* `C117_unknown_solver_refuted` (KspProps.v): StokesRoutines.c 807-810 calls no solver for lin_solver outside -1..2 and InputOutput.c 1233 lets such values through
* `C117_scaling_refuted` (KspProps.v): Main_DOODZ.c 766 scales for every non-zero diag_scaling, StokesRoutines.c 815 scales back only for 1
* `C118_density_refuted` (AnisoViscProps.v): AnisotropyRoutines.c 107 sets rho to zero and ViscosityConciseAniso never changes it, so lines 543, 634 store zero density with density_variations = 1; StokesAssemblyDecoupled.c 1135 then takes log(rho) of it. The reaction progress (lines 539, 629) is zeroed likewise
* `C118_limits_refuted`, `C118_tension_refuted` (AnisoViscProps.v): min_eta, max_eta are read (AnisotropyRoutines.c 85) and not used, and the return mapping (lines 271-292) has no lower limit of the stress: negative viscosity in tension
* `C118_cutoff_refuted` (AnisoViscProps.v): AnisotropyRoutines.c 275-277 corrects the stress for dilation also at the von Mises limit
* `C118_elastic_rate_refuted` (AnisoViscProps.v): AnisotropyRoutines.c 315 multiplies the elastic rate by itself
* `C118_rest_refuted`, `C118_no_mechanism_refuted` (AnisoViscProps.v): 0/0 in AnisotropyRoutines.c 218-249 is followed by exit(1)
* `C119_unchecked_refuted` (CallbackProps.v): Main_DOODZ.c 78 comments out ValidateSetup
* `C120_composition_air_refuted` (CallbackProps.v): BCc.type is allocated with zeros (MemoryAllocFree.c 504) and assigned nowhere (CellFlagging sets BCt and BCp only), so ChemicalRoutines.c 48, 163 solve for the air as well; Setup.c 761 tests BCt.type == 0 and is never true under a free surface; Setup.c 721-762 pass mesh->T
* `C120_fixed_refuted` (CallbackProps.v): Setup.c 622
* `C121_uniform_lost`, `C121_surface_refuted` (PolarProps.v): ThermalRoutines.c 330 (ChemicalRoutines.c 301) adds to the diagonal on the east side without the test of line 320, and lines 364-371 add the counterpart only if there is a rock cell above: the cell exchanges heat with a neighbour at zero temperature. The same happens on the west side below a closed top
* `C121_zero_flux_refuted` (PolarProps.v): ThermalRoutines.c 327, 337, 365, 369 give the cell the weight aW and the cell above the weight 1 - aW; the ghost cell is aW dz above the cell (323-326), so the weights are interchanged. Lines 325, 335 also take the arc tangent of the angle where its tangent is the slope
* `C123_single_phase_refuted` (ViscGridProps.v): RheologyDensity.c 1396 prints phase_perc_s[1] without asking whether there are two phases
* `C123_absent_incompressible_refuted` (ViscGridProps.v): RheologyDensity.c 1335 computes 0/0 for a material with bet = 0 that is absent from the cell; line 1353 tests the shear modulus for infinity only
* `C123_empty_vertex_refuted`, `C124_empty_vertex_refuted` (ViscGridProps.v): a vertex without material is only reported (1395-1397), or not noticed at all (1058-1079 with eta_average 0 or 2)
* `C125_tie_refuted` (DefMapProps.v): RheologyDensity.c 1784 declares `mech` without a value and 1857-1863 assign it only if one strain rate exceeds all others
* `C125_no_plasticity_refuted` (DefMapProps.v): RheologyDensity.c 1854 calls the local rheology without post-processing, so the plastic and elastic strain rates compared in 1857-1863 are always zero
* `C126_other_number_refuted`, `C126_phase_refuted` (MarkFileProps.v): Setup.c 170-172 ignore what fread returns and do not validate the phases (ValidatePhase is called before, in line 139)
* `C128_inactive_refuted` (SparseConvProps.v): MiscFunctions.c 499 starts with array[0] whatever phase[0] is

### 6.2 Observed, not proved

Found while transcribing, not stated as theorems (line numbers in `/repo/MDLIB`):

* RheologyParticles.c 1625-1626: the grid vorticity is zeroed before the stress rotation uses it.
* ParticleRoutines.c 2143: P2Mastah with `prop == 1` uses an uninitialised marker value; phase fractions of nodes in air are not normalised.
* AnisotropyRoutines.c 267: typo in an unused branch.
* StokesRoutines.c 749: with `let_res_grow` the line search returns +min_step (the wrong sign).
* Setup.c 529: the spacing along the south side is computed from xmax - zmin; 92 versus 139: the density table is indexed before the phase is validated; the dual phase and loaded initial markers are never validated.
* Setup.c 590: the free-surface position is never reported to the pressure callback.
* FreeSurface.c: exit(45) although slots could be recycled; side heights are overwritten; index -1 in SurfaceVelocity near the west side. Main_DOODZ.c 472 uses the marker count of the wrong chain.
* RheologyDensity.c: C_gbs never set; a failed local iteration calls exit(0); `Tyield += gdot*eta_vp` accumulates over the iterations; creep rates are reported at the trial stress; smooth softening with equal start and end strain is 0/0; EvaluateDensity returns an uninitialised density for an unknown density_model; InputOutput.c 1121: default eta_tol is 1e11.
* InputOutput.c 1342: phase_two is read from the key "phase_mix". FlowLaws.c: law 24 has n = 18; the "Homemade" law prints exp(-Q/nRT) but uses the positive exponent.
* ChemicalRoutines.c 90, 210: `mink` is uninitialised; MinMaxArray over b reads past b when there is air.
* ParticleRoutines.c: the exit(89) message of Interp_Grid2P prints an uninitialised index.
* Solvers.c 730: matD->d[k] where 1091 uses d[i] (the neighbouring x[k] is C93); scaling back only if diag_scaling == 1 while Main_DOODZ.c 766 scales for every non-zero value.
* StokesRoutines.c 830-918: on very small grids the number of counted equations is zero and the norm is 0/0.
* HDF5Output.c 305: `compo` is built from the dual phase (C87); 327: with diffuse_X the writer overwrites mesh->X_n, which the density of the next step reads; WriteOutputHDF5Particles allocates the file name twice and frees it once; `model.description` is written (500 bytes) but never set.
* GridRoutines.c 652-706 (never called): the vertical neighbours are taken at distance Ncz instead of Ncx and every iteration starts again from X0_n.
* MemoryAllocFree.c 914-915: exz_n_el and exz_n_diss are freed but never allocated (null pointers, harmless).
* ThermalRoutines.c 82, 174-175: the increments of work and elastic energy are never computed (C88).
* Solvers.c 122-231: from the second cycle of six on, the orthogonalisation loop runs one index too far and uses the coefficient and vector of the previous cycle; the residual identity and the monotone norms (C90) survive, the minimality does not. A return without convergence prints no warning (also KSPStokesDecoupled after 1000 iterations).
* Solvers.c 1046-1438: the Schur complement uses the Picard divergence Cc, the pressure update the Jacobian divergence CJ; C91 assumes that they agree. DirectStokesDecoupled does not free Dcm0.
* StokesAssemblyDecoupled.c 2080: the Jacobian continuity row tests comp_cells[c1] instead of [c2]; without effect because the diagonal is recomputed. With out_of_plane = 1 C is multiplied by 3/2 but B is not.
* GridRoutines.c 469-515: the side stresses sxx_W, sxx_E are never read; their top entry is never initialised and alternates between calls; sxx_E reads the vertex column Nx-2 instead of Nx-1.
* StokesRoutines.c 1045: Vz nodes with a stress condition (type 2) get no weight, Vx nodes of that type do.
* StokesAssemblyDecoupled.c: the surface stabilisation is dropped under different conditions in the Picard rows and residual (uC + c < 0, for z also if below a neighbour) and in the Newton rows (uC + c <= 0); in the z Newton rows prescribed side ghosts are folded with `vW -= vSW`, `vE -= vSE` where vS and vN are meant, and with periodic sides and free slip at top or bottom the mask inSSW is forced to 1.
* RheologyDensity.c: in the tensile cap the plastic divergence is set but the corrected pressure is not, so the tangent operator subtracts a derivative the residual does not have.
* InputOutput.c: ReadChar leaks its 50-byte buffer on the path that returns the literal; the quartz-coesite file is opened twice and closed once (1418-1421); ReadInputFile calls fclose(NULL) when the setup file is missing (1024).
* AdvectionRoutines.c 520: DefineInitialTimestep interpolates the shear modulus to the cells but looks only at the vertices.
* FreeSurface.c 1000-1001, 1017-1036: SurfaceVelocity accumulates sums and counters that are never used.
* AnisotropyRoutines.c 471-473: with periodic sides and one air vertex of the pair the mean includes the 0 of the air vertex.
* InputOutput.c 1417: the one-dimensional table is opened as PHASE_DIAGRAMS/QuartzCoesite600C.bin relative to the working directory, not in import_files_dir; the repository ships it as IMPORT/QuartzCoesite600C.bin (80000 bytes, 10000 doubles, the declared size). The test fopen(fname) != NULL leaks a handle.
* InputOutput.c 1504-1643: as soon as one phase uses density_model 2 all ten files must exist.
* FlowLaws.c 843-928: the activation volume Vpzm of grain growth is set for law 42 only and read nowhere.
* RheologyDensity.c 150-176: the residuals at eta_lo and eta_up are computed and not used.
* Solvers.c 321-676 (DirectStokesDecoupled, lin_solver = 0) cannot be reached, because InputOutput.c 1233-1236 replaces 0 by 2; SolveStokesDecoupled (StokesRoutines.c 776-795) has no caller. Neither is modelled.
* AnisotropyRoutines.c 258 sets the out-of-plane stress to -2 T_rot.xx instead of -(T_rot.xx + T_rot.zz); the value is not used afterwards.
* Solvers.c 576, 939: the printed sum of u covers the first matC->neq entries only.

## 7. What is modelled and what is not

Generated from the citations in the comments of `rocq/theories/*.v`. A function is listed as
modelled when lines inside it are cited by a definition, or it is named as transcribed; "(part: a-b, ...)" gives the cited lines when
they cover less than half of the function.

| file | modelled | not modelled |
|---|---|---|
| AdvectionRoutines.c | isout, isoutPart, RogerGuntherII, PureShearALE, EvaluateCourantCriterion, DefineInitialTimestep | RogerGunther 45, Check_dt_for_advection 689, FirstOrderUpwindAdvection 753, VelocitiesOnCenters 794, VelocitiesOnVertices 816, PureShearALE_X 838, PureShearALE_Z 931 |
| AnisotropyRoutines.c | AnisoFactorEvolv, I2, InitialiseDirectorVector, UpdateAnisoFactor, ViscosityConciseAniso, NonNewtonianViscosityGridAniso | Y2 55, Solve2x2 66, NormalizeDirector 853 |
| ChemicalRoutines.c | EvalNumEqChem, AddCoeffChem, ChemicalDirectSolve | - |
| CollisionAnisotropy.c | - | SetSurfaceZCoord 8, SetNoise 13, GetMicaEllipse 23, SetPhase 33, SetTemperature 55, SetGrainSize 74, SetBCPType 79, SetBCT 87, SetAnisoAngle 106, AddCrazyConductivity 128, main 138 |
| FD_Jacobian.c | PhaseRheologyLoop_v1, DerivativesOnTheFly_n, DerivativesOnTheFly_s | - |
| FlowLaws.c | ReadDataPowerLaw, ReadDataLinear, ReadDataGBS, ReadDataExponential, ReadDataGSE, ReadDataKinetics | - |
| FreeSurface.c | CorrectTopoIni, AddPartSed, RemeshMarkerChain, InterpTopoPart2Grid, MarkerChainPolyFit, TopoFun, CellFlagging, CleanUpSurfaceParticles, SurfaceDensityCorrection, DiffuseAlongTopography, KeepZeroMeanTopo, AllocateMarkerChain, FreeMarkerChain, SetTopoChainHorizontalCoords, SurfaceVelocity | AdvectFreeSurf 37, TopoFun0 471 |
| GridRoutines.c | InterpCentroidsToVerticesDouble, InterpVerticesToCentroidsDouble, SetGridCoordinates, ComputeLithostaticPressure (part: 415-465), InitialiseSolutionFields, GridIndices | ExpandCentroidArray 38, SetUpModel_NoMarkers 590, Diffuse_X 652 |
| HDF5Output.c | ScaleBack, ScaleBackD, DoubleToFloat (part: 86-90), AddFieldToGroup, WriteOutputHDF5 (part: 259, 280, 292-325, 487, 493, 499, 505, 511, 517, 523, 530-548, 557-563, 579-628), WriteOutputHDF5Particles (part: 1006), WriteResiduals | CreateDir 46, CreateOutputHDF5 98, AddGroupToHDF5 113 |
| InputOutput.c | DeletePreviousBreakpoint, LoadBreakpointParticles, MakeBreakpointParticles, ReadInputFile (part: 1028-1031, 1107-1124, 1141-1145, 1192-1196, 1225-1236, 1320-1324, 1387-1390, 1395), ScaleMe, ReadChar, ReadInt2, ReadDou2, ReadMatProps, ReadBin | GetSetupFileName 47, LoadIniParticles 60, ReadPhaseDiagram 1814, UpdateInputFile 2187 |
| Main_DOODZ.c | RunMDOODZ (part: 79, 94-102, 126-129, 274, 392-393, 400-413, 426, 435, 446-458, 469, 558, 627-645, 648-843, 858-873, 1006-1007, 1019-1039, 1041-1177, 1180-1199, 1204-1216) | - |
| MeltingRoutines.c | PartialMelting, MeltFractionGrid, UpdateAlphaCp, MassSourceTerm | - |
| MemoryAllocFree.c | AllocMat, FreeMat, SAlloc, SFree, FreeSparseSystems, GridAlloc, GridFree, PartAlloc, PartFree, NmodelAlloc, NmodelFree, AllocatePhaseDiagrams, FreePhaseDiagrams | DoodzMalloc 36, DoodzCalloc 53, DoodzRealloc 70, DoodzFree 88 |
| MiscFunctions.c | ArrayTimesScalar, MinMaxArray, MinMaxArrayTag, MinMaxArrayVal, ArrayPlusScalarArray, SumArray, MinMaxArrayPart, ArrayEqualArray, ArrayEqualArrayI | CheckSym 44, MinMaxArrayI 79, ArrayPlusArray 95, Initialise1DArrayChar 107, ArrayMinusArray 134, Initialise1DArrayInt 146, Initialise1DArrayDouble 158, MinMaxArrayTagInt 262, MinMaxArrayTagChar 301, ArrayTimesScalarArray 402, ArrayDividedScalarArray 414, IsNanArray2DFP 440, IsInfArray2DFP 456, Initialise2DArray 472, Initialise2DArrayInt 484, Print2DArrayDouble 532, Print2DArrayInt 551, Print2DArrayChar 570 |
| NeckingReview.c | - | SetDualPhase 7, SetSurfaceZCoord 36, SetNoise 44, SetPhase 54, SetTemperature 80, SetGrainSize 99, SetBCPType 104, SetBCT 112, AddCrazyConductivity 131, main 141 |
| ParticleReseeding.c | - | CountPartCell2 44 |
| ParticleRoutines.c | V2P, Centers2Particle, Vertices2Particle, ParticleInflowCheck, AssignMarkerProperties, AssignMarkerPropertiesInflow, PartInit, FindClosestPhase2, AddPartCell2, PutPartInBox, Interp_Grid2P, Interp_Grid2P_centroids2, Interp_Grid2P_strain, Interp_Phase2VizGrid, P2Mastah, CountPartCell, CountPartCell_OLD, TransmutateMarkers | Compute4Cell 44, FindClosestPhase 916, FindClosestPhaseVertex 997, AddPartCell 1032, AddPartVert 1137, MarkerValue 1359 |
| RheologyDensity.c | EffectiveStrainRate, LocalIterationViscoElastic, ViscosityConcise, Softening, UpdateDensity, HuetAveragingModel, ItpRho1D, Interpolate2Ddata, StrainRateComponents, LogTimeSeries, ComputeMeanQuantitesForTimeSeries, CohesionFrictionDilationGrid, EvaluateDensity, LocalIterationViscoElasticGrainSize, NonNewtonianViscosityGrid, ShearModCompExpGrid, GenerateDeformationMaps | - |
| RheologyParticles.c | AccumulatedStrainII, DeformationGradient, FiniteStrainAspectRatio, UpdateMaxPT, UpdateParticleDensity, UpdateParticlePhi, UpdateParticleGrainSize, UpdateParticleEnergy, UpdateParticlePressure, UpdateParticleDivThermal, InitialiseGrainSizeParticles, UpdateParticleX, UpdateParticleStress | AccumulatedStrain 671, UpdateParticleXpips 925 |
| Setup.c | ValidatePhase, SetParticles, ValidateInternalPoint, SetBCs, SetPureShearBCVx, SetSimpleShearBCVx, SetPureOrSimpleShearBCVx, SetPureShearBCVz, SetSimpleShearBCVz, SetPureOrSimpleShearBCVz, IsEllipseCoordinates, IsRectangleCoordinates, DefaultTextFilename, BuildInitialTopography, ValidateSetup | - |
| Solvers.c | kspgcr, KillerSolver (part: 1085-1103, 1166-1182, 1255-1263, 1279-1320), DirectStokesDecoupledComp, KSPStokesDecoupled, copy_cholmod_matrix_to_cs | CheckArrays 70, ArrayTimesArray 110, DirectStokes 234, DirectStokesDecoupled 321 |
| SparseTools.c | DotProduct (part: 46-62), BuildInitialSolutions, BackToSolutionVector, DecompressCSRtoTriplets, NormResidualCholmod, copy_cs_to_cholmod_matrix, copy_vec_to_cholmod_dense, copy_cholmod_dense_to_cholmod_dense, cholmod_dense_plus_cholmod_dense, copy_cholmod_to_cs_matrix | PermuteVector 84, PermuteInverseVector 96 |
| StokesAssemblyDecoupled.c | AddCoeff3, Xmomentum_InnerNodesDecoupled, Zmomentum_InnerNodesDecoupled, Continuity_InnerNodesDecoupled, MergeParallelMatrixDecoupled, DomainDecompositionDecoupled, AllocateTempMatArraysDecoupled, BuildJacobianOperatorDecoupled, MergeParallelMatrix, Xjacobian_InnerNodesDecoupled3, Zjacobian_InnerNodesDecoupled3, BuildStokesOperatorDecoupled (part: 1357-1388, 1403-1456) | FreeDecompositionDecoupled 1202, AllocateDecompositionDecoupled 1213, FreeTempMatArraysDecoupled 1272 |
| StokesRoutines.c | UpdateNonLinearity, RheologicalOperators, ApplyBC, DetectCompressibleCells, ExtractSolutions2, LineSearchDecoupled, EvaluateStokesResidualDecoupled, EvaluateRHS, InitialiseSolutionVector, ExtractDiagonalScale, ScaleMatrix, ScaleVelocitiesRHSBack, SolveStokesDefectDecoupled, EvalNumberOfEquations | SolveStokesDecoupled 776 |
| ThermalRoutines.c | EvalNumEqTemp, AddCoeffThermal, EnergyDirectSolve, ThermalSteps, SetThermalPert | - |
| ThermalSolver.c | copy_cs_to_cholmod_matrix1, copy_vec_to_cholmod_dense1, TransposeA, FactorEnergyCHOLMOD, SolveEnergyCHOLMOD | copy_cholmod_dense_to_cholmod_dense1 157, copy_cholmod_to_cs_matrix1 170 |
| omptest.c | - | main 6 |

Everywhere: doubles are real numbers (no rounding) except in C08 and C71; overflow of `int` is not
modelled; the sparse direct solvers (CHOLMOD, UMFPACK, CXSparse), HDF5, BLAS and the C library are not
modelled beyond the contract stated where they are used; printing is ignored.

## Limits of the results

* C09, C10, C15, C19, C27, C40, C41, C42 and C49 are listed as "partial" in MANIFEST.json: the property as stated is false of the code. A `_refuted` theorem gives the counterexample and the other theorems say what does hold.
* The lines of seeded/LOG.jsonl with an empty `failed` list are edits of the model that no theorem has been shown to reject. Two of them (AnisoModel.aniso_factor_evolv, AnisoModel.I2) were not tried again after C109_saturates and C118 were added. The others are mostly constants and tests on values that no theorem mentions; whether each changes a claim has not been settled.
* The checks of material input in ReadInputFile (InputOutput.c 1257-1363: exit codes 1, 12, 13, 122) are not modelled.
