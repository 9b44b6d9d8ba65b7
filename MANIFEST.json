{
 "claims": [
  {
   "property": "C01",
   "status": "partial",
   "theorems": [
    "C01_interior_edge_finite",
    "C01_boundary_edge_finite",
    "C01_recorded_boundary_flux_finite_refuted",
    "C01_second_order_edge_finite"
   ],
   "note": "Contribution to the time derivative is finite for every non-negative depth on both back ends. Refuted for the recorded boundary flux of the PETSc back end, which is 0/0 on edges of dry cells."
  },
  {
   "property": "C02",
   "status": "proved",
   "theorems": [
    "C02_flux_consistent",
    "C02_riemann_solver_consistent"
   ],
   "note": "Both back ends, no velocity regularisation at the edge level; the Riemann solver itself for any velocities."
  },
  {
   "property": "C03",
   "status": "proved",
   "theorems": [
    "C03_orientation",
    "C03_rotation"
   ],
   "note": "Edge reversal and rotation, both back ends, wet and dry."
  },
  {
   "property": "C04",
   "status": "proved",
   "theorems": [
    "C04_roe_linearisation",
    "C04_full_upwind"
   ],
   "note": "Roe identity for every pair with one wet side, full upwinding on both sides."
  },
  {
   "property": "C05",
   "status": "partial",
   "theorems": [
    "C05_correction_only_adds_dissipation",
    "C05_reported_speed_bounds_roe_waves",
    "C05_reported_speed_bounds_used_speeds_refuted"
   ],
   "note": "Correction only adds dissipation; reported speed bounds the Roe waves. Refuted: it does not bound the corrected speeds used in the flux (wet/dry front)."
  },
  {
   "property": "C06",
   "status": "proved",
   "theorems": [
    "C06_wall_passes_no_water",
    "C06_mirror_state",
    "C06_wall_pressure"
   ],
   "note": "Zero mass and zero tangential flux for every state, both back ends; hydrostatic pressure when there is no normal velocity."
  },
  {
   "property": "C07",
   "status": "partial",
   "theorems": [
    "C07_exterior_state_critical",
    "C07_petsc_outflow_never_in",
    "C07_ceed_outflow_never_in_refuted"
   ],
   "note": "Proved for the PETSc back end for every state (mass flux >= interior discharge >= 0, zero for reversed flow). Refuted for libCEED on dry cells with residual momentum."
  },
  {
   "property": "C08",
   "status": "partial",
   "theorems": [
    "C08_backends_agree_partial",
    "C08_backends_agree_refuted",
    "C08_outflow_backends_agree_refuted",
    "C08_hydrostatic_reconstruction_agree_partial",
    "C08_hydrostatic_reconstruction_refuted",
    "C08_second_order_agree_partial",
    "C08_sources_agree_partial"
   ],
   "note": "Equality except at depth = threshold (interior, Dirichlet, reflecting) and for outflow without regularisation; refuted in the remaining cases."
  },
  {
   "property": "C09",
   "status": "proved",
   "theorems": [
    "C09_volume_balance",
    "C09_closed_basin_keeps_volume"
   ],
   "note": "All four discretisations (PETSc, CEED, and both with hydrostatic reconstruction), forward Euler and RK4, any sequence of steps: volume change equals the integrator quadrature of rain minus boundary outflow; closed basin keeps its volume."
  },
  {
   "property": "C10",
   "status": "partial",
   "theorems": [
    "C10_decomposition_independent",
    "C10_owned_edges_decomposition_partial",
    "C10_any_local_order_refuted"
   ],
   "note": "PETSc (all four discretisations, first order): proved for every distribution with one layer of ghosts, any orientation of shared edges, any number of Euler/RK4 steps. libCEED (owned edges, summed contributions): proved when owned cells are numbered first; refuted for other local numberings because contributions are written at local_to_owned indices into a vector in local order."
  },
  {
   "property": "C11",
   "status": "partial",
   "theorems": [
    "C11_lake_stays_at_rest_partial",
    "C11_imbalance_bounded",
    "C11_any_lake_at_rest_refuted"
   ],
   "note": "Exact for every closed basin, bathymetry and level whose depths are zero or above the threshold (any number of Euler/RK4 steps, both back ends); for all lakes the imbalance is bounded by g tiny^2/2 * perimeter/area; exact balance is refuted for films thinner than the threshold."
  },
  {
   "property": "C12",
   "status": "partial",
   "theorems": [
    "C12_reconstructed_depths",
    "C12_no_flow_over_emerged_bed",
    "C12_equal_beds_standard_flux",
    "C12_equal_beds_regularised_refuted"
   ],
   "note": "Depth bounds and no-flow over emerged beds for all inputs; equal beds give the standard flux except depth = threshold (PETSc) and regularised velocities (libCEED), where it is refuted."
  },
  {
   "property": "C13",
   "status": "proved",
   "theorems": [
    "C13_semi_implicit_friction_slows",
    "C13_friction_acts"
   ],
   "note": "Both back ends, every dt>=0, roughness, flux and slope; one factor in (0,1] for both components, equal to 1 for zero roughness and below 1 for moving water over a rough bed."
  },
  {
   "property": "C14",
   "status": "proved",
   "theorems": [
    "C14_implicit_equation_solved",
    "C14_below_threshold_damped",
    "C14_any_threshold_refuted"
   ],
   "note": "Both back ends. Additionally: damping below a threshold <= 1; refuted for thresholds outside (0,1], which the configuration reader accepts."
  },
  {
   "property": "C15",
   "status": "proved",
   "theorems": [
    "C15_dry_cell_sources",
    "C15_rain_added_unchanged"
   ],
   "note": "Both back ends, every friction method, wet or dry for the water balance."
  },
  {
   "property": "C16",
   "status": "proved",
   "theorems": [
    "C16_uniform_flux_petsc",
    "C16_uniform_flux_ceed",
    "C16_uniform_concentration_preserved",
    "C16_tracers_independent",
    "C16_tracers_passive"
   ],
   "note": "Edge theorems for PETSc and libCEED; whole-mesh preservation for Roe/upwind/hydrostatic reconstruction, Euler and RK4, any step sequence, in the wet/dry states each scheme resolves; tracers do not influence each other (any of the four discretisations) and the flow equals the flow without tracers (h_anuga = 0, semi-implicit friction). Exact real arithmetic."
  },
  {
   "property": "C17",
   "status": "proved",
   "theorems": [
    "C17_upwind_maximum_principle"
   ],
   "note": "Euler step, upwind solver: PETSc, PETSc with hydrostatic reconstruction, libCEED (all cells wet for libCEED, whose dry handling is refuted under C19)."
  },
  {
   "property": "C18",
   "status": "partial",
   "theorems": [
    "C18_rates_within_critical_stress_partial",
    "C18_clean_still_water_refuted"
   ],
   "note": "Refuted for the code: still clean water has erosion rate -0.001, so the load becomes negative (both back ends). Partial theorem: the rates have the right sign exactly within the critical stresses."
  },
  {
   "property": "C19",
   "status": "partial",
   "theorems": [
    "C19_petsc_fluxes_finite",
    "C19_petsc_dry_cell_receives_tracer",
    "C19_ceed_nan_next_to_dry_cell_refuted",
    "C19_ceed_tracer_left_behind_refuted",
    "C19_ceed_hr_nan_at_bed_step_refuted"
   ],
   "note": "Proved for PETSc (fluxes finite, dry cell receives the neighbour concentration). Refuted for libCEED: NaN next to an empty cell, tracer left behind when the dry cell is on the left, NaN at a bed step with hydrostatic reconstruction."
  },
  {
   "property": "C20",
   "status": "partial",
   "theorems": [
    "C20_gradients_exact_for_linear_fields_partial",
    "C20_surrounded_cells_are_determined",
    "C20_constant_field_has_zero_gradient",
    "C20_gradients_are_linear",
    "C20_small_cells_refuted"
   ],
   "note": "Exact for every linear field in every cell whose least-squares determinant is at least 1e-15 (and that determinant is positive exactly for cells with two non-parallel neighbours), zero for constant fields everywhere, linear in the field. The absolute 1e-15 cut-off makes the unrestricted claim false for very small cells: refuted with a witness."
  },
  {
   "property": "C21",
   "status": "proved",
   "theorems": [
    "C21_limiter_choice",
    "C21_minmod_within_half_jump",
    "C21_limited_face_values_between_cells",
    "C21_face_depths",
    "C21_constant_state_exact",
    "C21_unlimited_linear_state_exact",
    "C21_uniform_state_first_order_flux"
   ],
   "note": "For any gradients, geometry and cell values; also the exactness of the unlimited reconstruction on linear fields and of every reconstruction on constant states."
  },
  {
   "property": "C22",
   "status": "proved",
   "theorems": [
    "C22_triangle_slopes_exact",
    "C22_triangle_slopes_interpolate",
    "C22_quadrilateral_slopes_exact",
    "C22_other_cells_rejected"
   ],
   "note": "Slopes of triangles and quadrilaterals are exact for every plane, interpolate the vertex elevations of a triangle; other cell shapes are rejected."
  },
  {
   "property": "C23",
   "status": "partial",
   "theorems": [
    "C23_edge_normal",
    "C23_normal_points_out_of_cell",
    "C23_cell_closes",
    "C23_sloping_cell_closes_refuted",
    "C23_area_translation_invariant",
    "C23_area_starting_vertex_irrelevant",
    "C23_area_orientation",
    "C23_area_is_sum_of_triangles"
   ],
   "note": "Unit normals, outward orientation, closure with horizontal edge lengths, area invariance under translation, starting vertex and orientation, area as a sum of triangles. With the default bed-following edge lengths closure fails on a sloping bed: refuted with a witness."
  },
  {
   "property": "C24",
   "status": "proved",
   "theorems": [
    "C24_maps_mutually_inverse",
    "C24_owned_first_in_local_order",
    "C24_arrays_list_owned_cells"
   ],
   "note": "For every distribution of ownership: maps mutually inverse, numbering a permutation, local order kept, owned first; API arrays indexed by owned number, wrong sizes rejected."
  },
  {
   "property": "C25",
   "status": "partial",
   "theorems": [
    "C25_edge_lists_partition",
    "C25_boundaries_cover_once_partial",
    "C25_no_face_sets_single_boundary",
    "C25_boundaries_cover_once_refuted"
   ],
   "note": "Internal/boundary lists partition all edges. Boundaries cover each treated boundary edge exactly once when the face-set ids are increasing or non-zero; otherwise refuted (id collision)."
  },
  {
   "property": "C26",
   "status": "partial",
   "theorems": [
    "C26_maximum_is_exact",
    "C26_distribution_independent",
    "C26_recorded_whenever_fluxes_defined",
    "C26_reset_is_zero",
    "C26_ceed_first_order_partial",
    "C26_latest_time_step_in_contexts",
    "C26_ceed_second_order_refuted",
    "C26_accumulating_outputs_refuted"
   ],
   "note": "PETSc back end: exact maximum for every distribution, edge order and reduction tree. libCEED: first order proved if passive outputs are overwritten; refuted at second order (time step never pushed into the interior operator) and if libCEED adds into passive outputs; with hydrostatic reconstruction refuted in C71."
  },
  {
   "property": "C27",
   "status": "partial",
   "theorems": [
    "C27_cell_of_the_maximum",
    "C27_single_process",
    "C27_parallel_edge_id_lost",
    "C27_ceed_location_lost",
    "C27_tracer_edge_id_refuted",
    "C27_parallel_edge_id_refuted"
   ],
   "note": "Reported cell proved for every distribution (PETSc); edge id proved on one process for the flow operator; refuted in parallel (edge ids are -1), for the tracer operators (wrong index) and lost on the libCEED back end."
  },
  {
   "property": "C28",
   "status": "partial",
   "theorems": [
    "C28_calendar",
    "C28_round_trip",
    "C28_composition",
    "C28_order_preserved",
    "C28_coupling_interval_round_trip",
    "C28_unset_unit_rejected_refuted"
   ],
   "note": "Calendar table, round trip, composition, order and coupling-interval set/get proved for all six units; C28_unset_unit_rejected_refuted shows an unset unit is not rejected: the error code 83 comes back as the time."
  },
  {
   "property": "C29",
   "status": "partial",
   "theorems": [
    "C29_step_positive_and_growth_limited",
    "C29_target_met",
    "C29_every_history",
    "C29_interval_limit_refuted",
    "C29_target_after_short_step_refuted"
   ],
   "note": "Positivity, growth factor, interval bound over every history of measured Courant numbers (initial step at most the interval) and target met when measured with a full step are proved; two refutations: a step longer than the interval is not cut in the decrease branch, and measuring on the shortened last step makes the next step exceed the target."
  },
  {
   "property": "C30",
   "status": "partial",
   "theorems": [
    "C30_advance_exact",
    "C30_terminates",
    "C30_not_finished_early",
    "C30_fixed_step_exact",
    "C30_fixed_step_terminates",
    "C30_dt_option",
    "C30_dt_option_refuted",
    "C30_step_limit_refuted",
    "C30_time_step_used",
    "C30_configured_time_step_refuted"
   ],
   "note": "Adaptive runs: every advance completes and is exact, termination, not early. Fixed step: exact and terminating when the coupling interval is a whole number of steps. C30_step_limit_refuted: otherwise the step limit stops the run before the final time for ever. C30_dt_option, C30_dt_option_refuted: steps given by -dt are taken exactly, but a smaller step than configured stops the run early for ever. The PETSc step rule is an explicit hypothesis (step_rule), shown to hold for the MATCHSTEP rule."
  },
  {
   "property": "C31",
   "status": "proved",
   "theorems": [
    "C31_reads_return_last_writes",
    "C31_regional_source",
    "C31_homogeneous_source",
    "C31_domain_source",
    "C31_manning",
    "C31_regions_follow_cell_sets",
    "C31_regions_partition_owned_cells"
   ],
   "note": "For every sequence of accepted calls each slot holds what the last call concerning it gave (independent layout-free specification assigns); regional, homogeneous, domain and Manning cases spelt out with frames; regions themselves follow the cell sets."
  },
  {
   "property": "C32",
   "status": "proved",
   "theorems": [
    "C32_dirichlet_values_disjoint",
    "C32_components_cover_row"
   ],
   "note": "Any order of calls on both back ends; the four quantities cover every component of a row exactly once. Hypothesis: a condition of the quantity exists on the boundary (see C33)."
  },
  {
   "property": "C33",
   "status": "partial",
   "theorems": [
    "C33_invalid_rejected_partial",
    "C33_bad_index_or_size_rejected",
    "C33_rejected_calls_have_no_effect",
    "C33_sediment_class_checked_refuted",
    "C33_missing_condition_rejected_refuted"
   ],
   "note": "Proved: bad index, size, number of components or condition type returns an error and changes nothing, for whole histories. Refuted: sediment classes out of range are not checked; a missing tracer condition (or, with CEED, a non-Dirichlet flow condition) is dereferenced."
  },
  {
   "property": "C34",
   "status": "partial",
   "theorems": [
    "C34_source_goes_to_region_numbered_like_its_index",
    "C34_configured_source_applied_partial",
    "C34_errors_exactly",
    "C34_configured_source_applied_refuted"
   ],
   "note": "The exact behaviour is proved: setup applies the source configured for region index r to the region whose id is r. Hence the claim holds if ids are 0,1,2,.. in order (partial) and is refuted for ids 1,2. The rejected configurations are characterised exactly. Sources set by id through the API are covered by C31."
  },
  {
   "property": "C35",
   "status": "partial",
   "theorems": [
    "C35_last_material_everywhere",
    "C35_coefficient_of_region_material_partial",
    "C35_missing_material_rejected",
    "C35_coefficient_of_region_material_refuted"
   ],
   "note": "Exact behaviour proved: every cell gets the coefficient of the last material; a file is indexed by the position in the region. The claim holds for one material for all regions (partial) and is refuted with two materials, and with a file and two regions. A missing material is reported exactly when there is one."
  },
  {
   "property": "C36",
   "status": "partial",
   "theorems": [
    "C36_one_condition_per_boundary",
    "C36_errors_exactly_partial",
    "C36_two_conditions_never_accepted",
    "C36_accepted_exactly",
    "C36_errors_exactly_refuted",
    "C36_dirichlet_values_applied"
   ],
   "note": "For every configuration: success gives each boundary exactly one condition, reflecting and marked automatic if unassigned; double assignment is never accepted. Errors are characterised exactly without tracers, and the accepted configurations exactly with any tracers; refuted: unknown sediment condition is undefined behaviour, 32 flow conditions are refused. Also the Dirichlet values reach every edge."
  },
  {
   "property": "C37",
   "status": "partial",
   "theorems": [
    "C37_each_step_counted_once",
    "C37_mean_bounds",
    "C37_time_average_refuted"
   ],
   "note": "For every run, repeated calls included, the averages are exact with rdy->dt as weights and lie between the extremes. Refuted as averages over time: the solver shortens steps to hit coupling times but the weight stays the configured step."
  },
  {
   "property": "C38",
   "status": "partial",
   "theorems": [
    "C38_names_distinct",
    "C38_outputs_kept_partial",
    "C38_time_interval_outputs",
    "C38_time_interval_refuted",
    "C38_dates_refuted",
    "C38_no_step_interval_refuted",
    "C38_no_steps_refuted",
    "C38_second_simulation_refuted",
    "C38_restart_grid_refuted"
   ],
   "note": "For step-interval output without dates from step 0: names distinct, every data file keeps the outputs of its batch in order, all values and references survive to the end of the run. Time-interval outputs happen exactly at multiples. Refuted: time interval inside a batch, dates with units coarser than seconds, no step interval, no steps, second simulation in one process, restart in a new directory."
  },
  {
   "property": "C39",
   "status": "partial",
   "theorems": [
    "C39_rows_and_outputs",
    "C39_time_average_partial",
    "C39_ceed_steady",
    "C39_coupling_refuted",
    "C39_short_steps_refuted",
    "C39_stages_refuted",
    "C39_ceed_ghost_edge_refuted",
    "C39_coordinates",
    "C39_coordinates_refuted",
    "C39_undefined_refuted"
   ],
   "note": "For every run, number of processes and both back ends: one output per due step, one row per edge with an owned cell and configured condition, exact content of each row, every event counted once. The time average is exact when each step is one evaluation and one monitor call with its size (and for steady flow with CEED). Refuted: coupling intervals, shortened steps, multi-stage methods, ghost edge order in CEED, truncated coordinates, no interval or tracers."
  },
  {
   "property": "C40",
   "status": "partial",
   "theorems": [
    "C40_restores",
    "C40_reinitialize",
    "C40_names_distinct",
    "C40_crash_keeps_other_checkpoints",
    "C40_crash_while_rewriting_refuted",
    "C40_continues_from_start_of_interval_partial",
    "C40_continues_from_end_of_interval_partial",
    "C40_middle_of_interval_refuted",
    "C40_adaptive_refuted",
    "C40_nproc_refuted",
    "C40_refined_refuted",
    "C40_name_refuted",
    "C40_monitors_refuted",
    "C40_monitors_set",
    "C40_member_directories"
   ],
   "note": "Reading restores values of every cell, time, step and step size for any numbering, number of processes and both formats; names of different steps differ; a crash spoils at most the checkpoint being written; from the start of a coupling interval (or its end without adaptive steps) the continued run equals the uninterrupted one. Refuted: middle of an interval, adaptive steps at the end of one, process count overwritten, refined meshes, format guessed from the name, rewriting at coupling boundaries, time series not resumed."
  },
  {
   "property": "C41",
   "status": "partial",
   "theorems": [
    "C41_even_split",
    "C41_member_configuration",
    "C41_isolated",
    "C41_own_directories_partial",
    "C41_own_directories_refuted",
    "C41_override_dropped_refuted",
    "C41_override_unvalidated_refuted"
   ],
   "note": "Even split, isolation, membership and exactly the overridden sections proved for any size and process count. Own directories proved for distinct names; refuted: equal names share a directory, an override naming a missing parameter is dropped, overrides are not validated."
  },
  {
   "property": "C42",
   "status": "partial",
   "theorems": [
    "C42_times_consistent_partial",
    "C42_coupling_interval",
    "C42_output_consistent",
    "C42_methods_supported",
    "C42_inputs_complete",
    "C42_adaptive_run_starts_partial",
    "C42_times_given_refuted",
    "C42_no_division_by_zero_refuted",
    "C42_output_interval_unit_refuted",
    "C42_physics_refuted",
    "C42_condition_values_refuted"
   ],
   "note": "For every accepted configuration: times fit together when two are given, coupling interval, output section, methods, inputs, and adaptive runs start in the state C29/C30 need. Refuted: one or three settings, negative numbers, zero steps, batch division by zero, unit of the output interval, negative dry depth, inverted BS2002 check, negative class count, replaced method, condition with only a value."
  },
  {
   "property": "C43",
   "status": "proved",
   "theorems": [
    "C43_substitution_exact",
    "C43_substitution_unique",
    "C43_every_process",
    "C43_several_placeholders_refuted"
   ],
   "note": "Every text, placeholder and replacement: exact result, exact size, no write outside the buffer, same text on every process; the result is unique. C43_several_placeholders_refuted concerns tables with two entries, which the code does not use."
  },
  {
   "property": "C44",
   "status": "partial",
   "theorems": [
    "C44_sampled_in_time",
    "C44_exact_at_sample_times",
    "C44_between_samples",
    "C44_within_record",
    "C44_before_first_refuted"
   ],
   "note": "For every increasing record and every time from its first sample on: the sample of the interval, or the interpolation, exact at samples and between them. Refuted: before the first time the last value is used."
  },
  {
   "property": "C45",
   "status": "partial",
   "theorems": [
    "C45_unstructured_nearest",
    "C45_raster_nearest_partial",
    "C45_raster_containing_cell",
    "C45_raster_far_refuted",
    "C45_unstructured_size_refuted"
   ],
   "note": "Scattered points: nearest point, first in case of ties, for all point sets. Raster: same within (max(ncols,nrows)+1) cell sizes, and the containing cell inside the raster; refuted: farther cells get raster cell 0; a mesh file with more points than the data file is read out of bounds."
  },
  {
   "property": "C46",
   "status": "partial",
   "theorems": [
    "C46_homogeneous_rain",
    "C46_homogeneous_boundary",
    "C46_multiple_boundaries",
    "C46_regional_rain_refuted"
   ],
   "note": "For every history of applications and records: rain, one boundary and several boundaries always hold the values for the current time. Refuted for rain given region by region: uninitialised value on a second application within an interval."
  },
  {
   "property": "C47",
   "status": "partial",
   "theorems": [
    "C47_other_grid_rejected",
    "C47_other_points_refuted",
    "C47_raster_rain_partial",
    "C47_unstructured_rain_partial",
    "C47_unstructured_boundary_partial",
    "C47_regular_intervals",
    "C47_long_interval_refuted",
    "C47_late_start_refuted"
   ],
   "note": "For every history that keeps step with the hours (in particular equal intervals of at most one hour from the start): file of the current hour, for raster rain, rain at points and boundaries. Refuted: intervals longer than an hour and late starts lag behind. A raster file on another grid is rejected (C47_other_grid_rejected); one of unstructured data with other points is not (C47_other_points_refuted)."
  },
  {
   "property": "C48",
   "status": "partial",
   "theorems": [
    "C48_values_inherited",
    "C48_volume_preserved",
    "C48_children_tables",
    "C48_regions_inherited",
    "C48_repeated_refinement",
    "C48_no_cells_refuted",
    "C48_ghost_cells_refuted"
   ],
   "note": "For every refinement tree and every history of refinements (one process, PETSc supplies the tree): values and totals, tables, regions of owned cells, ancestors. Refuted: a process without cells accesses empty arrays; ghost cells leave a region in which the process owns no cell."
  },
  {
   "property": "C49",
   "status": "partial",
   "theorems": [
    "C49_reverse_order",
    "C49_program_handlers",
    "C49_second_cycle_refuted"
   ],
   "note": "For every sequence of initialisations, registrations (any number) and device selections in the first cycle: each handler called once, last registered first, nothing left. Refuted: after a shutdown and a second initialisation the diagnostics do not exist and a registered handler leads to a call of a null pointer or a write outside the array."
  },
  {
   "property": "C50",
   "status": "partial",
   "theorems": [
    "C50_set_then_get",
    "C50_no_fields",
    "C50_set_reaches_members",
    "C50_add_appends",
    "C50_apply_in_order",
    "C50_history",
    "C50_late_member_refuted"
   ],
   "note": "For all operators and histories: latest value under a name, other names unaffected, composites reach all members present, application in the order added, any number of members. Refuted: a member added after a field was set does not get it."
  },
  {
   "property": "C51",
   "status": "partial",
   "theorems": [
    "C51_active_resource",
    "C51_reselect",
    "C51_second_cycle_refuted"
   ],
   "note": "For every sequence of calls in the first cycle, and its shutdown. Refuted: a context selected after a second initialisation survives shutdown."
  },
  {
   "property": "C52",
   "status": "partial",
   "theorems": [
    "C52_elevation_defined",
    "C52_elevation_increasing",
    "C52_elevation_continuous_partial",
    "C52_elevation_continuous_refuted",
    "C52_volume_consistent_partial",
    "C52_volume_consistent_refuted",
    "C52_vertex_order_irrelevant",
    "C52_vertex_value_is_mean",
    "C52_lake_at_rest",
    "C52_edge_depth_change"
   ],
   "note": "Defined, increasing, above the lowest vertex, bed plus depth when submerged, mean over the cells around a vertex, exact for still water. Continuity holds at every wet depth but fails at the dry threshold (refuted with a witness); the enclosed volume is exact with one or three wet vertices and wrong with two (refuted)."
  },
  {
   "property": "C53",
   "status": "partial",
   "theorems": [
    "C53_depth_stays_nonnegative_refuted"
   ],
   "note": "Refuted: four dry neighbours drain a cell below zero at Courant number 1/2 in one Euler step, and the next right-hand side is not finite."
  },
  {
   "property": "C54",
   "status": "partial",
   "theorems": [
    "C54_tracer_balance",
    "C54_ceed_whole_supply_counted",
    "C54_petsc_dry_supply_lost_refuted",
    "C54_walls_hold_tracer"
   ],
   "note": "Balance of every tracer over any run for all four discretisations, with walls holding the tracer. Refuted: the supply to dry cells is dropped by the PETSc back end."
  },
  {
   "property": "C55",
   "status": "proved",
   "theorems": [
    "C55_uniform_flow_preserved"
   ],
   "note": "All six discretisations, both integrators, any number of steps; closure of every cell is a hypothesis (established for planar meshes by C23_cell_closes)."
  },
  {
   "property": "C56",
   "status": "partial",
   "theorems": [
    "C56_flow_read_out",
    "C56_read_out_with_tracers_refuted",
    "C56_read_out_size_checked_refuted"
   ],
   "note": "Proved without tracers; refuted with tracers (reader steps by three) and for wrong sizes in optimised builds (PetscAssert)."
  },
  {
   "property": "C57",
   "status": "partial",
   "theorems": [
    "C57_regions_start_from_their_condition_partial",
    "C57_unknown_condition_rejected_partial",
    "C57_accepted_exactly",
    "C57_file_for_several_regions_refuted",
    "C57_constant_salinity_refuted",
    "C57_unknown_tracer_condition_rejected_refuted",
    "C57_unused_salinity_condition_refuted"
   ],
   "note": "Proved for any mesh, regions, numbers, files and tracers when a file is used by one region and constant salinity/temperature has no tracer before it; the accepted configurations are characterised exactly with any tracers; unknown flow conditions are rejected (no tracers). Refuted: file shared by two regions, constant salinity with sediment, unknown sediment condition, salinity listed but not simulated."
  },
  {
   "property": "C58",
   "status": "proved",
   "theorems": [
    "C58_valid_fields",
    "C58_no_access_outside",
    "C58_requested_fields_written"
   ],
   "note": "Accepted names are exactly those of the table; each requested field is written under its name with its component, for any tracers, cells, operator backend and history."
  },
  {
   "property": "C59",
   "status": "partial",
   "theorems": [
    "C59_coordinates_match_values",
    "C59_unknown_site_rejected",
    "C59_cell_asked_for_partial",
    "C59_cell_asked_for_exactly",
    "C59_cell_asked_for_refuted",
    "C59_repeated_rows_refuted"
   ],
   "note": "For any distribution: one line per due call, site and component; centroid and value always belong to the same cell; it is the cell asked for when numbering is natural; a site that is no cell ends the run with an error. Refuted: distributed numbering reports another cell; the line is repeated at coupling boundaries."
  },
  {
   "property": "C60",
   "status": "partial",
   "theorems": [
    "C60_output_names_distinct",
    "C60_output_stamp_partial",
    "C60_output_stamp_refuted",
    "C60_forcing_file_names",
    "C60_output_files_distinct"
   ],
   "note": "Distinct stamps for distinct seconds and hourly forcing names proved for all dates against a second-by-second calendar. The stamp is the date only within the first month; refuted: month is used off by one (31 January, December, month ends)."
  },
  {
   "property": "C61",
   "status": "partial",
   "theorems": [
    "C61_prefix_is_base_name_partial",
    "C61_prefix_refuted"
   ],
   "note": "Base name proved when the extension occurs once and the file is in the working directory; refuted: extension inside the path cuts the prefix so that two files share it, and the directory stays in the prefix."
  },
  {
   "property": "C62",
   "status": "partial",
   "theorems": [
    "C62_single_boundary",
    "C62_single_boundary_rejected",
    "C62_matched_boundaries",
    "C62_unmatched_boundary",
    "C62_forcing_partial",
    "C62_whole_domain_refuted",
    "C62_regional_rain_refuted"
   ],
   "note": "For every created forcing and every history of applications: prescribed rain in all cells, prescribed water on all forced boundaries, frame condition, matching of Dirichlet boundaries to data sets and its errors. Refuted: rain for the whole domain is refused or ignored unless region 1 is the whole domain; rain for region n falls on region n-1."
  },
  {
   "property": "C63",
   "status": "partial",
   "theorems": [
    "C63_salinity_refuted",
    "C63_flow_sources",
    "C63_sediment_sources",
    "C63_solver_rate",
    "C63_solver_sediment_rate"
   ],
   "note": "For all differentiable solutions, flow and sediment: the sources complete the balance laws, and the rates the solver computes from them are the time derivatives. Refuted: no source is computed for salinity (or temperature), so a manufactured salinity is not a solution."
  },
  {
   "property": "C64",
   "status": "partial",
   "theorems": [
    "C64_solution_partial",
    "C64_sources",
    "C64_boundary_values",
    "C64_step_data",
    "C64_roughness",
    "C64_region_id_refuted",
    "C64_several_regions_refuted"
   ],
   "note": "For one region with id 1 covering the domain and all numbers of sediment classes: sources, boundary values at mid-step, solution and roughness; the solution also for several regions. Refuted: with another region id the sources are not those of the solution; with several regions the call fails."
  },
  {
   "property": "C65",
   "status": "partial",
   "theorems": [
    "C65_error_norms",
    "C65_weights",
    "C65_distribution_independent",
    "C65_zero_error",
    "C65_totals_partial",
    "C65_totals_refuted"
   ],
   "note": "For all distributions: norms of the difference, independence of the distribution, zero exactly without difference. Refuted: the totals (number of cells, area) are stored on process 0 only."
  },
  {
   "property": "C66",
   "status": "partial",
   "theorems": [
    "C66_rate_is_best_fit",
    "C66_power_law",
    "C66_verdict_partial",
    "C66_exact_component_refuted",
    "C66_salinity_refuted",
    "C66_times_partial",
    "C66_unit_refuted",
    "C66_whole_steps_refuted"
   ],
   "note": "Rate is the unique least-squares fit, exact for power laws; verdict for flow and sediment. Refuted: a component that is exactly right on every mesh fails the study; salinity is judged by the expectation of a sediment class or reads outside the array; with units other than seconds or a final time that is not a whole number of steps the meshes are compared at different times."
  },
  {
   "property": "C67",
   "status": "partial",
   "theorems": [
    "C67_flux",
    "C67_components",
    "C67_eta_initial",
    "C67_recorded",
    "C67_boundary_values",
    "C67_extracted",
    "C67_salinity_dirichlet_refuted",
    "C67_dry_dirichlet_refuted",
    "C67_room_refuted",
    "C67_reflecting_refuted",
    "C67_extracted_refuted"
   ],
   "note": "For flow alone and for flow with at most five tracers including a sediment class, wet where values are prescribed: right-hand side, recorded fluxes, prescribed values. Refuted: salinity or heat without sediment reads the wrong input on Dirichlet boundaries; dry Dirichlet edges with tracers write outside their output; more than five tracers overflow; with tracers reflecting edges record nothing; with edges of other processes the recorded fluxes are handed out for the wrong edges."
  },
  {
   "property": "C68",
   "status": "partial",
   "theorems": [
    "C68_sources"
   ],
   "note": "Right-hand side, primitive variables and recorded sources of every owned cell, for all numbers of tracers up to the five the Q-functions have room for (C67_room_refuted shows the sixth overflows)."
  },
  {
   "property": "C69",
   "status": "partial",
   "theorems": [
    "C69_elevations",
    "C69_elevations_triangulation",
    "C69_still_water",
    "C69_distribution",
    "C69_flow_at_rest",
    "C69_still_water_refuted",
    "C69_quadrilateral_refuted",
    "C69_ignored_with_tracers",
    "C69_salinity_refuted"
   ],
   "note": "For flow alone on triangles: elevations of every vertex from the current solution, one level over submerged beds, independence of the distribution. Refuted: still water over a sloping bed flows from the deep into the shallow cell (only the momentum flux is corrected); of a quadrilateral three vertices are used; with salinity or temperature (accepted by the configuration check) the setting has no effect and the elevations are computed from wrong entries."
  },
  {
   "property": "C70",
   "status": "partial",
   "theorems": [
    "C70_gradients",
    "C70_linear",
    "C70_exchange",
    "C70_distribution",
    "C70_faces",
    "C70_limited",
    "C70_flux",
    "C70_tracers",
    "C70_limiter_partial",
    "C70_limiter_refuted"
   ],
   "note": "Gradients, exchange, independence of the distribution, states and right-hand side for all meshes and solutions without tracers (with tracers second order is refused). Refuted: the libCEED back end ignores the limiters van_leer and none of the configuration and the option -van_leer, which the PETSc back end follows (minmod, no_limiter and -no_limiter are followed)."
  },
  {
   "property": "C71",
   "status": "partial",
   "theorems": [
    "C71_bed",
    "C71_flux",
    "C71_sides",
    "C71_sources",
    "C71_courant_standard",
    "C71_courant_never_recorded",
    "C71_courant_hydrostatic_refuted"
   ],
   "note": "Beds, right-hand side, exchange of water and tracers, level beds, sources: proved for all meshes, beds and states, with and without tracers. Refuted: the Q-functions write the Courant numbers to the output for fluxes, so with hydrostatic reconstruction no number of an internal edge is ever recorded (never defined for any state), and the reported maximum and the adaptive time step ignore the internal edges."
  },
  {
   "property": "C72",
   "status": "proved",
   "theorems": [
    "C72_rhs",
    "C72_run",
    "C72_volume",
    "C72_lake_at_rest"
   ],
   "note": "For first-order flow without tracers (with or without hydrostatic reconstruction, all friction methods, both time integrators, any number of processes and any distribution numbering owned cells first): the flat arrays of all processes carry exactly the run of the whole domain; volume in a closed basin and the lake at rest follow for the arrays. The lake inherits the resolved-depth condition of C11. Second order on flat arrays is C70, tracers are C67/C68/C71."
  },
  {
   "property": "C73",
   "status": "partial",
   "theorems": [
    "C73_rhs",
    "C73_primitive_variables",
    "C73_run",
    "C73_volume",
    "C73_lake_at_rest",
    "C73_accumulated_flux",
    "C73_needs_owned_cells",
    "C73_empty_process_refuted"
   ],
   "note": "For first-order flow without tracers, with or without hydrostatic reconstruction, semi-implicit and XQ2018 friction, both integrators, any number of processes owning cells: the flat arrays carry exactly the run of the whole domain for any contents of the stored Riemann states and flux arrays; recorded and (forward Euler) accumulated boundary fluxes, primitive variables, volume in a closed basin, lake at rest. Refuted: a process that owns no cells makes the source operator divide by zero, on a distribution the libCEED back end computes on. Not covered: second order and tracers on these arrays."
  },
  {
   "property": "C74",
   "status": "partial",
   "theorems": [
    "C74_distribution_independent",
    "C74_two_distributions",
    "C74_defined_for_nonnegative_depths",
    "C74_ceed_direction_refuted"
   ],
   "note": "Proved for the PETSc tracer operators (both Riemann solvers, with and without hydrostatic reconstruction, both integrators, arbitrary meshes and distributions), and evaluations are defined for all nonnegative depths. Refuted for libCEED: next to a dry cell the tracer flux is a number in one direction of the edge and a NaN in the other."
  },
  {
   "property": "C75",
   "status": "partial",
   "theorems": [
    "C75_rhs",
    "C75_run",
    "C75_defined_for_nonnegative_depths",
    "C75_salinity_and_heat_refused",
    "C75_hr_primitive_variables_not_written",
    "C75_owned_cells_first",
    "C75_ghosts_first_refuted",
    "C75_elevation_file_refuted"
   ],
   "note": "Proved for sediment with the semi-implicit source on the PETSc back end: one evaluation and whole runs on flat arrays are those of the whole domain for any stale contents; boundary fluxes of every component are recorded; primitive variables without hydrostatic reconstruction; defined for nonnegative depths. Refuted: with tracers and hydrostatic reconstruction cell elevations from a file are ignored (level water over them starts to flow), primitive variables are not written, and roughness is read at local numbers so a ghost numbered before an owned wet cell is an out-of-bounds read. Salinity and heat are refused."
  },
  {
   "property": "C76",
   "status": "partial",
   "theorems": [
    "C76_time_series",
    "C76_file_names_partial",
    "C76_leap_day_refuted",
    "C76_forcing_partial",
    "C76_one_boundary",
    "C76_map_file",
    "C76_map_file_parallel_refuted",
    "C76_leap_day_run_refuted",
    "C76_long_interval_refuted",
    "C76_time_unit_refuted",
    "C76_rain_lost_refuted",
    "C76_changed_raster_refuted",
    "C76_raster_far_refuted"
   ],
   "note": "Proved for whole runs of the Fortran driver with one region, one Dirichlet boundary, any option set; hourly files need steps of at most an hour, time unit seconds, no 29 February and (rasters) cells near the raster. Time series equal to the C driver; file names are those of the dates hour after hour; map files keep the data point of each cell when read by one process. Refuted: in leap years 28 February 23h is followed by 1 March (integer division in day_of_month); steps over an hour lag; other time units compare the wrong number with 3600; with several regions the rain is lost without an error; changed raster headers are accepted; far cells use an index that was never set; map files are refused on several processes."
  },
  {
   "property": "C77",
   "status": "partial",
   "theorems": [
    "C77_natural_ids",
    "C77_refined_mesh_refuted",
    "C77_owned_cells",
    "C77_short_array_refuted",
    "C77_cells_of_all_processes",
    "C77_boundaries",
    "C77_fortran_boundaries",
    "C77_fortran_other_numbers",
    "C77_boundary_edges_once_refuted",
    "C77_names_partial",
    "C77_empty_name",
    "C77_names_refuted",
    "C77_build_configuration_refuted",
    "C77_version_refuted",
    "C77_version"
   ],
   "note": "Proved: numbers of cells in the grid file for any distribution and number of components; owned-cell queries list the same cells in the same order, every mesh cell is reported exactly once over all processes with its own data; boundary queries and their Fortran versions for every boundary, errors without effect for other numbers and sizes; names shorter than 1024 characters. Fails: cell numbers on refined meshes on several processes are -1, short arrays in optimised builds, boundary edges of ghost cells are reported by several processes, a name of 1024 characters loses its last one, Fortran build information is padded with zeros, the Fortran version query returns nothing."
  },
  {
   "property": "C78",
   "status": "partial",
   "theorems": [
    "C78_grid",
    "C78_refined",
    "C78_neighbours",
    "C78_unused_vertices_rejected",
    "C78_process_without_cells_refuted"
   ],
   "note": "Proved for grids of triangles and quadrilaterals on any number of processes (file order, unrefined; PETSc order, refined), given that PETSc reports closures, numbers and the migration SF truly and every vertex belongs to a cell. Neighbour tables never overflow and agree with PETSc; unused vertices are rejected on several processes. Fails: a process without vertices enters the minimum of the vertex numbers with an uninitialised variable, so a good grid may be refused."
  },
  {
   "property": "C79",
   "status": "proved",
   "theorems": [
    "C79_rhs",
    "C79_run",
    "C79_any_number_of_processes",
    "C79_volume",
    "C79_uniform_flow",
    "C79_defined"
   ],
   "note": "Second-order flow without tracers or hydrostatic reconstruction (the code refuses those), any limiter, any number of processes with owned cells numbered first: the flat arrays of all processes carry exactly the second-order run of the whole domain; independence of the number of processes, volume in a closed basin, uniform flow, and absence of failing evaluations follow for the arrays."
  },
  {
   "property": "C80",
   "status": "proved",
   "theorems": [
    "C80_rhs",
    "C80_run",
    "C80_any_number_of_processes",
    "C80_volume",
    "C80_uniform_flow",
    "C80_accumulated_flux",
    "C80_defined"
   ],
   "note": "Second-order flow on the PETSc back end (Roe solver, any limiter), any number of processes: contributions to ghost cells are added to their owners, so an edge between processes counts once on each side. The arrays of all processes carry exactly the second-order run of the whole domain; recorded boundary fluxes, independence of the number of processes, volume in a closed basin, uniform flow and absence of failing evaluations follow for the arrays."
  },
  {
   "property": "C81",
   "status": "proved",
   "theorems": [
    "C81_rhs",
    "C81_run",
    "C81_any_number_of_processes",
    "C81_reference",
    "C81_sediment_balance",
    "C81_defined",
    "C81_numbering_refuted"
   ],
   "note": "Sediment without salinity or temperature, semi-implicit friction, up to the number of classes the device arrays hold, critical outflow excluded (the code refuses it), owned cells numbered first. If processes may traverse an edge in either direction, evaluations at edges wet on exactly one side are excluded: C81_numbering_refuted shows that there one numbering gives numbers and the other a NaN. Dirichlet edges dry on both sides are excluded because the code writes outside its arrays there (C67). With hydrostatic reconstruction the balance is stated for the Roe solver, because the interior flux is always Roe and only boundaries follow the configured solver."
  },
  {
   "property": "C82",
   "status": "partial",
   "theorems": [
    "C82_fields",
    "C82_checkpoints_partial",
    "C82_series_partial",
    "C82_defined",
    "C82_defined_binary_partial",
    "C82_checkpoints_refuted",
    "C82_series_refuted",
    "C82_read_checkpoint_refuted",
    "C82_binary_refuted",
    "C82_log_refuted"
   ],
   "note": "Fields proved in full. Checkpoints and time series are proved for histories without refinement, time series from step 0: refinement makes a new TS on which InitCheckpoints and InitTimeSeries are not called again, so both stop (C82_checkpoints_refuted, C82_series_refuted), and a restart at a later step has no time series. A program that reads a checkpoint itself before the first interval gets no output (C82_read_checkpoint_refuted). With binary output, refinement before the first interval (as in driver/amr.c) or a restart at step 0 leaves a destroyed viewer in use (C82_binary_refuted). Output by time_interval alone in another format than XDMF with detailed logging divides by zero (C82_log_refuted). Trusted: TSMonitorSet ignores an identical registration and holds 10, TSSolve calls the monitors before each step and after the last, a new object is different from all earlier ones."
  },
  {
   "property": "C83",
   "status": "partial",
   "theorems": [
    "C83_options_kept",
    "C83_others_untouched",
    "C83_mesh_options",
    "C83_intervals",
    "C83_cgns_partial",
    "C83_format_partial",
    "C83_checkpoint_format",
    "C83_again",
    "C83_monitor_registered",
    "C83_cgns_refuted",
    "C83_format_refuted",
    "C83_override_refuted",
    "C83_time_interval_refuted",
    "C83_next_simulation_refuted"
   ],
   "note": "Options kept, others untouched, mesh options, intervals, checkpoint formats and repetition are proved in full; C83_monitor_registered discharges what C82 takes for granted. File names of CGNS output are proved up to 122 characters without a colon: longer ones are cut off silently and a colon ends the name (C83_cgns_refuted). The format follows the requested viewer unless the text contains the name of another format (C83_format_refuted). Overriding binary output by XDMF divides by a batch size of 0 (C83_override_refuted). A time_interval has no effect on CGNS output (C83_time_interval_refuted). A second simulation with another configuration in the same process takes over the monitor of the first (C83_next_simulation_refuted). Trusted: the options database as a finite map with case-sensitive names; the text type:file of a viewer."
  },
  {
   "property": "C84",
   "status": "partial",
   "theorems": [
    "C84_rain",
    "C84_boundary",
    "C84_run_partial",
    "C84_map_file",
    "C84_map_options_partial",
    "C84_map_in_use_partial",
    "C84_two_map_files_refuted",
    "C84_boundary_map_file_refuted",
    "C84_no_start_date_refuted",
    "C84_long_date_refuted",
    "C84_many_regions_refuted",
    "C84_long_name_refuted",
    "C84_interpolation_refuted"
   ],
   "note": "What the options are read as (C84_rain, C84_boundary) is proved in full within limits on lengths and counts; map files round-trip for any numbers of processes (C84_map_file); runs are proved for everything but records for several regions, hourly files in step with the applications and no map read (C84_run_partial); which map is used and written: C84_map_in_use_partial, partial because of two files named at once. Beyond the limits: dates with a number too many are accepted, regions beyond the twentieth get no rain, long names of region files overrun a buffer (C84_long_date_refuted, C84_many_regions_refuted, C84_long_name_refuted). A directory without a start date is ignored silently (C84_no_start_date_refuted). Reading and writing a map share one buffer (C84_two_map_files_refuted) and map files for boundaries do nothing (C84_boundary_map_file_refuted). With a record for each region interpolation depends on uninitialised memory (C84_interpolation_refuted)."
  },
  {
   "property": "C85",
   "status": "partial",
   "theorems": [
    "C85_history",
    "C85_marked",
    "C85_unmarked_refuted",
    "C85_few_marks_refuted",
    "C85_options",
    "C85_short_date_refuted",
    "C85_driver",
    "C85_driver_box",
    "C85_dir_only_refuted",
    "C85_interval_refuted"
   ],
   "note": "Proved: label of every refinement in every history of markings of the right size (C85_history, C85_marked), options and data of the driver over any number of refinements on a process that owns all cells (C85_options, C85_driver, C85_driver_box). Refuted: a refinement without marks refines a hard-coded box (C85_unmarked_refuted); marks for too few cells are only refused in debugging builds, otherwise read out of bounds (C85_few_marks_refuted); a start date of fewer than five numbers uses unset values (C85_short_date_refuted); a directory without date is not noticed (C85_dir_only_refuted); data advance a minute per interval of any length (C85_interval_refuted). What DMAdaptLabel does with the label is an input."
  },
  {
   "property": "C86",
   "status": "partial",
   "theorems": [
    "C86_completed",
    "C86_adaptive",
    "C86_fixed",
    "C86_short_interval_refuted",
    "C86_no_interval",
    "C86_step_limit",
    "C86_always_ends"
   ],
   "note": "Proved: the loop always ends with exactly one verdict (C86_always_ends), success means the final time was reached by whole intervals (C86_completed), adaptive runs always succeed (C86_adaptive), exact verdict for fixed steps with an interval of whole steps (C86_fixed), useless intervals are reported (C86_no_interval, C86_step_limit). Refuted: a new run whose number of steps is not a multiple of the steps per interval is reported as an error (C86_short_interval_refuted). Times are real numbers: rounding of the accumulated prev_time against the tolerance 1e-12 is not modelled."
  },
  {
   "property": "C87",
   "status": "partial",
   "theorems": [
    "C87_configured_data_survive",
    "C87_repeated",
    "C87_set_up",
    "C87_interface_data_forgotten",
    "C87_time_step_not_adapted",
    "C87_rain_refused",
    "C87_interface_data_refuted",
    "C87_rain_refuted"
   ],
   "note": "Proved: configured regions, sources, coefficients, boundary values, solution, time, step number and time step survive any history of refinements (C87_configured_data_survive, C87_repeated), and RDySetup leaves a simulation of which this holds (C87_set_up). Refuted: values set through the interface fall back to the configuration (C87_interface_data_forgotten, C87_interface_data_refuted); constant rain is refused after a refinement (C87_rain_refused, C87_rain_refuted). The first advance after a refinement does not adapt its step (C87_time_step_not_adapted). Materials read from files, which cannot be read for the refined mesh, are excluded; monitors and averages: C82."
  },
  {
   "property": "C88",
   "status": "partial",
   "theorems": [
    "C88_resources",
    "C88_refused",
    "C88_nothing_left_partial",
    "C88_ceed_leak_refuted",
    "C88_sediment_leak_refuted",
    "C88_observations_leak_refuted"
   ],
   "note": "Proved: for every accepted configuration and every history, no use after release and no double release, and the exact number of handles never given back (C88_resources); configurations that are not accepted are refused (C88_refused); nothing at all is left without CEED, sediment, observations, unused marks and unfinished output (C88_nothing_left_partial). Refuted: with CEED, sediment or observation sites objects are left behind (C88_ceed_leak_refuted, C88_sediment_leak_refuted, C88_observations_leak_refuted). Missing: salinity and heat, the forcing data sets and the configuration as separate objects, a process without cells."
  },
  {
   "property": "C89",
   "status": "partial",
   "theorems": [
    "C89_solution_partial",
    "C89_accumulated_flux",
    "C89_boundary_flux_refuted"
   ],
   "note": "Proved: the solution on every process is the same with and without a warm-up, for the same steps (C89_solution_partial), and what each boundary edge has accumulated differs by exactly the step of the warm-up (C89_accumulated_flux). Refuted: the recorded boundary fluxes change (C89_boundary_flux_refuted). Missing: the choice of step lengths inside PETSc after a warm-up; the hypotheses are met by the lake of C89_boundary_flux_refuted."
  },
  {
   "property": "C90",
   "status": "partial",
   "theorems": [
    "C90_conditions",
    "C90_not_reported_refuted",
    "C90_manufactured",
    "C90_time_dependent_roughness_refuted",
    "C90_released_partial",
    "C90_formula_leak_refuted"
   ],
   "note": "Proved, for any formula language: conditions and materials evaluate to the user's text (C90_conditions); functions of a manufactured solution to the text at each point and time after any history of evaluations, without reading freed memory (C90_manufactured); at the end nothing is released twice and exactly the listed formulas stay allocated (C90_released_partial). Refuted: formulas that are not understood are accepted and count as 0 (C90_not_reported_refuted); a time-dependent roughness is ignored and later reads freed memory (C90_time_dependent_roughness_refuted); formulas of the bed, tracer derivatives and sediment classes are never released (C90_formula_leak_refuted). Numbers are reals, so a division by zero inside a formula is not covered."
  },
  {
   "property": "C91",
   "status": "partial",
   "theorems": [
    "C91_snap",
    "C91_two_coordinates_refuted"
   ],
   "note": "Proved for meshes with three coordinates per vertex, after any history of evaluations (C91_snap). Refuted for two coordinates: the write leaves the array (C91_two_coordinates_refuted). Formulas for z that use t are excluded."
  },
  {
   "property": "C92",
   "status": "partial",
   "theorems": [
    "C92_values",
    "C92_wrong_size",
    "C92_run_ceed",
    "C92_run_petsc",
    "C92_lake_at_rest",
    "C92_ignored_refuted",
    "C92_refined_refuted"
   ],
   "note": "Proved: local values on all processes (C92_values), refusal of other sizes (C92_wrong_size), runs over the bed of the file with both back ends (C92_run_ceed, C92_run_petsc), lake at rest (C92_lake_at_rest). Refuted: without hydrostatic reconstruction the file has no effect (C92_ignored_refuted); a refinement reads it again and fails (C92_refined_refuted). First order, flow alone."
  },
  {
   "property": "C93",
   "status": "partial",
   "theorems": [
    "C93_first_order_partial",
    "C93_second_order_partial",
    "C93_backends_differ_refuted",
    "C93_sediment_partial",
    "C93_supply_to_dry_cells_refuted"
   ],
   "note": "Proved for runs whose states keep depths off the threshold: first order with both balancings (C93_first_order_partial), second order (C93_second_order_partial); host and device may use different processes. with any number of sediment classes (C93_sediment_partial). Refuted at the threshold (C93_backends_differ_refuted) and for sediment supplied to dry cells (C93_supply_to_dry_cells_refuted)."
  },
  {
   "property": "C94",
   "status": "partial",
   "theorems": [
    "C94_made_before_use",
    "C94_every_schedule",
    "C94_after_a_crash",
    "C94_same_answer",
    "C94_single_run",
    "C94_member_directories",
    "C94_waiting_members_refuted",
    "C94_file_in_the_way_refuted",
    "C94_nested_directory_refuted"
   ],
   "note": "Proved for every schedule: directories exist before use on any file system (C94_made_before_use); no errors, completion and files in place when nothing is in the way (C94_every_schedule); restart after a kill at any point (C94_after_a_crash); agreement within a member (C94_same_answer); no hang without an ensemble (C94_single_run). Refuted: members waiting for one that failed (C94_waiting_members_refuted), a file in the way (C94_file_in_the_way_refuted), nested directories (C94_nested_directory_refuted). The abort of all processes by a failing main program is not modelled."
  },
  {
   "property": "C95",
   "status": "partial",
   "theorems": [
    "C95_released_once",
    "C95_missing_file",
    "C95_released_partial",
    "C95_nothing_left",
    "C95_file_names_refuted",
    "C95_raster_map_refuted"
   ],
   "note": "No double release, no use after release and no use of unset pointers for any input (C95_released_once); the only failure is a Dirichlet condition without a file (C95_missing_file); nothing left with one file of each kind and no raster map file (C95_nothing_left); otherwise only copies of file names and one array are left (C95_released_partial). Refuted: the copies of file names are never released (C95_file_names_refuted); the first map of a raster is lost when the map is read (C95_raster_map_refuted). Failing checks on file contents end the run and are not modelled; writing maps is left out."
  },
  {
   "property": "C96",
   "status": "partial",
   "theorems": [
    "C96_levels",
    "C96_option",
    "C96_too_many",
    "C96_rates_exist",
    "C96_option_refuted",
    "C96_same_grid_refuted",
    "C96_zero_refuted",
    "C96_second_study_refuted",
    "C96_names",
    "C96_output_name_refuted"
   ],
   "note": "Without -dm_refine the grids and their numbers are right (C96_levels) and rates exist (C96_rates_exist); what -dm_refine does is described exactly (C96_option) and refutes the property for studies (C96_option_refuted, C96_same_grid_refuted), for level 0 (C96_zero_refuted) and for a second study in one process (C96_second_study_refuted). Levels up to 999 (the text buffer). Names: C96_names, C96_output_name_refuted."
  },
  {
   "property": "C97",
   "status": "partial",
   "theorems": [
    "C97_total",
    "C97_statistics",
    "C97_ratio",
    "C97_rank_order",
    "C97_ratio_refuted",
    "C97_total_refuted"
   ],
   "note": "Total, minimum, maximum, median and independence of rank numbering are proved for every partition of at most 2147483647 cells (C97_total, C97_statistics, C97_rank_order), the ratio when every process owns a cell (C97_ratio). Refuted beyond: the ratio is not a number when most processes own nothing (C97_ratio_refuted), and the total of more cells overflows the MPI type even with 64-bit indices (C97_total_refuted)."
  },
  {
   "property": "C98",
   "status": "partial",
   "theorems": [
    "C98_log",
    "C98_output",
    "C98_levels",
    "C98_members_refuted",
    "C98_emptied_refuted",
    "C98_ensemble_partial",
    "C98_file",
    "C98_two_simulators_refuted"
   ],
   "note": "Proved for one simulation on any number of processes and every schedule, to a file (C98_log) and to the output (C98_output); levels are monotone (C98_levels); the file name for one simulator (C98_file). Refuted for ensembles: messages of members other than the first are never written (C98_members_refuted), and members opening the shared file late empty it (C98_emptied_refuted); what is left is C98_ensemble_partial. Refuted for two simulators in a process, which share the name of the log file (C98_two_simulators_refuted)."
  },
  {
   "property": "C99",
   "status": "partial",
   "theorems": [
    "C99_setup_partial",
    "C99_without_sediment_refuted",
    "C99_blocks"
   ],
   "note": "Proved without tracers and with at least one class of sediment, salinity and heat on or off: block sizes (C99_blocks) and that setup refines the initial solution of C57 (C99_setup_partial). Refuted for salinity or heat without sediment: no such configuration can be set up (C99_without_sediment_refuted). What constant salinity and heat conditions do is in C57."
  }
 ]
}