{
 "claims": [
  {
   "property": "C01",
   "status": "proved",
   "theorems": [
    "C01_saturation_bounds",
    "C01_saturation_monotone"
   ],
   "note": "Bounds, monotonicity and saturation value at full wetting for both curve types, for all admissible parameters and pressures."
  },
  {
   "property": "C02",
   "status": "proved",
   "theorems": [
    "C02_saturation_derivatives",
    "C02_saturation_derivative_at_reference"
   ],
   "note": "First and second derivatives with respect to pressure, including the one-sided values at the reference pressure."
  },
  {
   "property": "C03",
   "status": "partial",
   "theorems": [
    "C03_rel_perm_bounds",
    "C03_rel_perm_monotone",
    "C03_rel_perm_derivative",
    "C03_mualem_dry_derivative_refuted"
   ],
   "note": "Bounds, monotonicity and derivative proved; C03_mualem_dry_derivative_refuted shows that the Mualem derivative is 0/0 at effective saturation 0."
  },
  {
   "property": "C04",
   "status": "proved",
   "theorems": [
    "C04_smoothing_determined",
    "C04_smoothed_derivative",
    "C04_junction_values",
    "C04_smoothed_end",
    "C04_smoothed_bounds"
   ],
   "note": "The smoothing polynomial is determined by its four conditions; values, slopes and bounds on the smoothed interval."
  },
  {
   "property": "C05",
   "status": "partial",
   "theorems": [
    "C05_saturation_compute",
    "C05_saturation_on_points_partial",
    "C05_rel_perm_on_points_partial",
    "C05_rel_perm_compute_partial",
    "C05_rel_perm_compute_refuted",
    "C05_on_points_refuted",
    "C05_double_assignment_refuted"
   ],
   "note": "Whole-array saturation: proved for every history. On-point evaluation: proved unless a hash table of 7 or more points is asked about a point it does not hold (C05_on_points_refuted: out-of-range read). Whole-array relative permeability: proved when one type covers points 0..n-1; refuted otherwise (loop counter used as point index). A point assigned to both types gets different curves from the two evaluators (C05_double_assignment_refuted)."
  },
  {
   "property": "C06",
   "status": "partial",
   "theorems": [
    "C06_density_positive",
    "C06_density_monotone",
    "C06_density_continuous",
    "C06_density_derivatives",
    "C06_density_derivative_at_reference",
    "C06_outputs_defined_partial",
    "C06_outputs_defined_refuted",
    "C06_density_law",
    "C06_unknown_model_refused",
    "C06_constant_models"
   ],
   "note": "Positivity, continuity, monotonicity and derivatives for the pressure-only models; the Batzle-Wang models leave the derivative outputs unwritten (C06_outputs_defined_refuted)."
  },
  {
   "property": "C07",
   "status": "proved",
   "theorems": [
    "C07_fraction_range",
    "C07_fraction_increasing"
   ],
   "note": "Range, zero only for fresh water, strict monotonicity."
  },
  {
   "property": "C08",
   "status": "partial",
   "theorems": [
    "C08_inverse",
    "C08_input_unchanged_partial",
    "C08_input_unchanged_refuted"
   ],
   "note": "Two-sided inverse for every invertible matrix; the caller's matrix is kept only if no non-zero entry is below machine epsilon (refuted otherwise)."
  },
  {
   "property": "C09",
   "status": "proved",
   "theorems": [
    "C09_plane_through_points",
    "C09_intercept",
    "C09_intercept_parallel",
    "C09_projection",
    "C09_unit_normal_triangle",
    "C09_normal_quadrilateral",
    "C09_normal_parallelogram",
    "C09_unit_vector",
    "C09_triangle_area",
    "C09_area_invariant",
    "C09_quadrilateral_area",
    "C09_parallelogram_area",
    "C09_tetrahedron_volume",
    "C09_volume_invariant",
    "C09_volumes_agree"
   ],
   "note": "All clauses proved, for triangles and for flat convex quadrilaterals in order; C89 says what happens to warped or crossed ones."
  },
  {
   "property": "C10",
   "status": "proved",
   "theorems": [
    "C10_polar_angle"
   ],
   "note": "Range and defining equations of the polar angle for every non-zero vector."
  },
  {
   "property": "C11",
   "status": "partial",
   "theorems": [
    "C11_found",
    "C11_not_found_partial",
    "C11_not_found_refuted"
   ],
   "note": "First position when present; a missing value returns 76, outside the list only for lists of at most 76 elements (refuted beyond)."
  },
  {
   "property": "C12",
   "status": "partial",
   "theorems": [
    "C12_run_ends_at_target",
    "C12_clock_monotone",
    "C12_past_target",
    "C12_ts_first_run",
    "C12_ts_second_run_refuted"
   ],
   "note": "SNES branch: proved for every schedule of solver outcomes and every growth factor > 0. TS branch (PETSc's TSSolve taken from its documentation): the first run reaches the target, a second one need not (C12_ts_second_run_refuted)."
  },
  {
   "property": "C13",
   "status": "partial",
   "theorems": [
    "C13_no_time_skipped_partial",
    "C13_no_time_skipped_refuted",
    "C13_run_after_error_refuted"
   ],
   "note": "Equality proved when no attempt that would have reached the target fails; in general the clock never lags behind the accepted steps. Refuted otherwise: a failed target step, or an earlier run that ended with an error, makes the clock jump."
  },
  {
   "property": "C14",
   "status": "proved",
   "theorems": [
    "C14_step_sizes",
    "C14_initial_step_refuted"
   ],
   "note": "Bounds and the exact size of every attempt; refuted when the initial step exceeds the maximum."
  },
  {
   "property": "C15",
   "status": "proved",
   "theorems": [
    "C15_terminates",
    "C15_bounded_failures",
    "C15_bounded_successes",
    "C15_shrinking_steps_refuted"
   ],
   "note": "Termination with explicit bounds for growth factors >= 1; a growth factor below 1 is accepted by the options and need not terminate (refuted)."
  },
  {
   "property": "C16",
   "status": "partial",
   "theorems": [
    "C16_outputs_partial",
    "C16_outputs_refuted",
    "C16_checkpoints",
    "C16_final_checkpoint",
    "C16_checkpoints_off",
    "C16_interval_zero_refuted"
   ],
   "note": "Checkpoints: exact list of step numbers and contents, final state included. Outputs: exact for runs without failed solves; with failures every due step is written and nothing off-interval, but steps are repeated and step 0 is written (refuted). Interval 0 divides by zero (refuted)."
  },
  {
   "property": "C17",
   "status": "partial",
   "theorems": [
    "C17_refused",
    "C17_errors_change_nothing_partial",
    "C17_errors_change_nothing_refuted",
    "C17_frozen_after_setup_refuted",
    "C17_options_first_refuted",
    "C17_no_crash_partial"
   ],
   "note": "Missing prerequisites are refused with nothing changed, for every state. Other errors can leave changes behind, mode and discretization are not frozen by the setup, and reading the options first crashes (refuted with witnesses); no undefined behaviour for programs that choose first and stop at errors."
  },
  {
   "property": "C18",
   "status": "partial",
   "theorems": [
    "C18_unsupported_refused",
    "C18_supported_accepted",
    "C18_operations_match_partial",
    "C18_operations_match_refuted",
    "C18_number_of_fields_refuted"
   ],
   "note": "Unsupported pairs refused, supported accepted, and operations match after any successful calls without command-line override. Refuted: the return codes of the command-line override are ignored; the field-count function is stale in TH mode and BDM's for WY."
  },
  {
   "property": "C19",
   "status": "partial",
   "theorems": [
    "C19_reverse_order_partial",
    "C19_reverse_order_timing_partial",
    "C19_never_overflows",
    "C19_every_cycle_refuted"
   ],
   "note": "Exactly once in reverse order for the first cycle of a process, any number of registrations, and no array overflow. Refuted for later cycles (freed globals are reused), for finalizing twice and for profiling without a setup."
  },
  {
   "property": "C20",
   "status": "proved",
   "theorems": [
    "C20_lookup",
    "C20_after_finalize_refuted"
   ],
   "note": "For every history of a cycle. C20_after_finalize_refuted records that lookups after finalization read freed memory."
  },
  {
   "property": "C21",
   "status": "partial",
   "theorems": [
    "C21_destroyed_exactly_once",
    "C21_replaced_are_destroyed",
    "C21_nothing_else_destroyed",
    "C21_own_contexts_never_twice",
    "C21_forgotten_kinds",
    "C21_every_kind_destroyed_refuted",
    "C21_same_context_set_again_refuted"
   ],
   "note": "Every context of a kind the code tracks is destroyed exactly once, replaced contexts included, nothing else is. Refuted: two kinds are forgotten by the destructor; setting the same context again for the same kind destroys it while in use."
  },
  {
   "property": "C22",
   "status": "partial",
   "theorems": [
    "C22_last_function_and_context",
    "C22_last_constant",
    "C22_last_spatial_function",
    "C22_absent_when_never_set",
    "C22_reported_present",
    "C22_kinds_independent",
    "C22_constant_velocity_refuted"
   ],
   "note": "Proved for every kind and every history of settings. Refuted only for constant boundary velocity."
  },
  {
   "property": "C23",
   "status": "partial",
   "theorems": [
    "C23_constant_scalar_times_identity",
    "C23_scalar_function_times_identity",
    "C23_constant_diagonal",
    "C23_diagonal_function",
    "C23_fortran_diagonal_function",
    "C23_diagonals_from_file",
    "C23_constant_matrix",
    "C23_matrix_function",
    "C23_off_diagonal_entries_kept",
    "C23_any_prior_content_refuted",
    "C23_file_clears_array_refuted"
   ],
   "note": "Proved for clean result arrays; refuted when the result arrays hold earlier content."
  },
  {
   "property": "C24",
   "status": "partial",
   "theorems": [
    "C24_option_sets_its_quantity_partial",
    "C24_option_changes_nothing_else_partial",
    "C24_thermal_conductivity_sets_porosity",
    "C24_thermal_conductivity_refuted",
    "C24_driver_uses_option_for_unset_property",
    "C24_driver_keeps_set_property",
    "C24_driver_keeps_molecular_weight_refuted",
    "C24_boundary_values_installed"
   ],
   "note": "Proved for all options except the thermal conductivity one, which sets porosity (refuted); the driver keeps every property the user set except the saline molecular weight (refuted)."
  },
  {
   "property": "C25",
   "status": "partial",
   "theorems": [
    "C25_samples_distinct_and_in_range",
    "C25_samples_belong_to_their_process",
    "C25_TH_few_cells_refuted",
    "C25_salinity_cells_refuted",
    "C25_empty_process_refuted"
   ],
   "note": "Proved for Richards mode with non-empty processes; TH with few cells, SALINITY and empty processes refuted."
  },
  {
   "property": "C26",
   "status": "partial",
   "theorems": [
    "C26_pack",
    "C26_redistribution",
    "C26_max_neighbours",
    "C26_max_vertices_partial",
    "C26_max_vertices_refuted"
   ],
   "note": "C26_pack and C26_redistribution cover the whole path from packing to local cells, ghosts, neighbours, vertices and coordinates, for every mesh, distribution, numbering and sorting routine; the width of the neighbour field is right (C26_max_neighbours). Refuted part: the width of the vertex field is computed without counting vertex 0 (tdyugrid.c:175), so a mesh whose largest cell contains the first vertex loses a vertex (C26_max_vertices_refuted); C26_max_vertices_partial covers meshes where no cell uses vertex 0. The end-to-end theorem assumes the width is right (fits) and that every process receives at least one cell."
  },
  {
   "property": "C27",
   "status": "proved",
   "theorems": [
    "C27_to_local",
    "C27_injective",
    "C27_owned_once"
   ],
   "note": "C27_to_local is the renumbering on one process for neighbour lists with any repetitions; C26_redistribution shows the resulting numbering is right on every process; C27_injective and C27_owned_once give the bijection."
  },
  {
   "property": "C28",
   "status": "partial",
   "theorems": [
    "C28_vertices",
    "C28_empty_refuted"
   ],
   "note": "C28_vertices, and the coordinates in C26_redistribution. Refuted for a process that received no cells: it reads the first element of an empty array (C28_empty_refuted, tdyugrid.c:981)."
  },
  {
   "property": "C29",
   "status": "proved",
   "theorems": [
    "C29_preallocation"
   ],
   "note": "C29_preallocation, for the neighbour tables that C26_redistribution shows are produced. Cell graphs list a neighbour once (MatMeshToCellGraph), so neighbours and distinct neighbours coincide."
  },
  {
   "property": "C30",
   "status": "partial",
   "theorems": [
    "C30_natural_position",
    "C30_round_trip",
    "C30_local",
    "C30_local_round_trip",
    "C30_restart",
    "C30_mesh_numbers_partial",
    "C30_mesh_numbers_refuted"
   ],
   "note": "C30_natural_position, C30_round_trip, C30_local, C30_local_round_trip and C30_restart hold for every permutation, partition, block size and vector. Refuted part: the mesh's table of global cell numbers (tdymeshcustom.c:36-44) copies indices of unknowns, so it is wrong as soon as there is more than one unknown per cell (C30_mesh_numbers_refuted); with one unknown it is right (C30_mesh_numbers_partial). DMPlex orderings are PETSc's and not modelled; layouts of vectors read from files are assumed to match the global vector."
  },
  {
   "property": "C31",
   "status": "proved",
   "theorems": [
    "C31_cell_balance",
    "C31_conservation",
    "C31_conservation_serial",
    "C31_residual_defined"
   ],
   "note": "FV-TPF residual assembly: per-cell balance, sum over a process, cancellation on one process, definedness. The MPFA-O side is C41."
  },
  {
   "property": "C32",
   "status": "partial",
   "theorems": [
    "C32_assembled_jacobian",
    "C32_dirichlet_outflow_partial",
    "C32_seepage_partial",
    "C32_dirichlet_inflow_refuted",
    "C32_dirichlet_gravity_refuted",
    "C32_seepage_gravity_refuted"
   ],
   "note": "Assembled matrix proved equal to the derivative for columns of cells without open boundary faces, away from switching points. Open boundary faces: Dirichlet Jacobian wrong on inflow (ukvr left 0) and, with gravity and compressibility, wrong gravity derivative (also seepage): refuted; the remaining cases are the _partial theorems. Boundary pressure is held fixed (faces whose boundary pressure follows the cell are not covered)."
  },
  {
   "property": "C33",
   "status": "proved",
   "theorems": [
    "C33_harmonic_mean",
    "C33_symmetric"
   ],
   "note": "Diagonal of the permeability tensors only, as in the code."
  },
  {
   "property": "C34",
   "status": "proved",
   "theorems": [
    "C34_flow_direction",
    "C34_equilibrium"
   ],
   "note": "Interior faces and closed reservoirs of the FV-TPF scheme."
  },
  {
   "property": "C35",
   "status": "partial",
   "theorems": [
    "C35_wet_residual",
    "C35_wet_jacobian",
    "C35_dry_refuted"
   ],
   "note": "Proved when every interior face can conduct; refuted for dry faces: Res, Jup and Jdn are automatic variables that the flux routines leave unwritten when both relative permeabilities are below 1e-8."
  },
  {
   "property": "C36",
   "status": "partial",
   "theorems": [
    "C36_own_values",
    "C36_dirichlet_shifted",
    "C36_dirichlet_refuted"
   ],
   "note": "Seepage residual and both boundary Jacobians proved; the Dirichlet residual uses index -id+1 (two faces further) instead of -id-1: refuted."
  },
  {
   "property": "C37",
   "status": "proved",
   "theorems": [
    "C37_fvtpf",
    "C37_fvtpf_outflow",
    "C37_mpfao_up",
    "C37_mpfao_down"
   ],
   "note": "Both schemes: C37_fvtpf* for the two-point scheme, C37_mpfao_* for the multi-point scheme, with strict outflow when the potential drives it."
  },
  {
   "property": "C38",
   "status": "proved",
   "theorems": [
    "C38_failed_step_no_trace"
   ],
   "note": "Every call of the solver starts from the last accepted solution with its stored mass at the call's step size."
  },
  {
   "property": "C39",
   "status": "proved",
   "theorems": [
    "C39_no_overrun",
    "C39_uniform",
    "C39_corner"
   ],
   "note": "C39_uniform holds for every vertex whose faces are numbered as SetupUpwindFacesForSubcell numbers them (well_numbered), every G matrix and every boundary type; LAPACK is represented by its contract A X = B and the local matrix is assumed non-singular. C39_no_overrun: all array writes stay in bounds. C39_corner covers vertices with a single cell. bc_type is one value for the whole mesh, so a vertex never mixes Dirichlet and Neumann faces."
  },
  {
   "property": "C40",
   "status": "proved",
   "theorems": [
    "C40_continuous"
   ],
   "note": "C40_continuous: the flux stored for every sub-face is the flux computed inside each adjacent sub-cell for one common set of interface pressures; Neumann sub-faces carry none. LAPACK by contract."
  },
  {
   "property": "C41",
   "status": "proved",
   "theorems": [
    "C41_balance",
    "C41_interior_cancels",
    "C41_closed_domain",
    "C41_flux_exists"
   ],
   "note": "C41_balance gives every entry and the sum for any partition (the fluxes across the boundary of the owned cells remain); C41_interior_cancels and C41_closed_domain are the one-process cases. Volumes, porosities and sources are arbitrary; the flux itself is characterised by is_flux in SpecMpfaoTs.v."
  },
  {
   "property": "C42",
   "status": "partial",
   "theorems": [
    "C42_transient_jacobian",
    "C42_step_jacobian",
    "C42_free_boundary_refuted",
    "C42_regions_refuted"
   ],
   "note": "Proved for the transient and the one-step Jacobian, all cells, any uninitialised memory, where boundary pressures are prescribed, the state family is consistent (fluid functions of pressure with the reported derivatives) and the upwind direction is decided. Refuted without a boundary pressure function (the boundary copies the cell pressure) and with connected regions (the array used by the Jacobian is not cleared)."
  },
  {
   "property": "C43",
   "status": "partial",
   "theorems": [
    "C43_pressure_formulation",
    "C43_transient_variable_partial",
    "C43_transient_variable_refuted",
    "C43_dae_partial",
    "C43_dae_refuted",
    "C43_step_partial",
    "C43_step_refuted",
    "C43_fvtpf_step_refuted"
   ],
   "note": "Pressure formulation proved for every fluid, volume and source. Transient-variable and DAE formulations hold for unit volumes only and multiply the mass rate by the volume a second time; the one-step residual of both schemes omits the volume of the source."
  },
  {
   "property": "C44",
   "status": "partial",
   "theorems": [
    "C44_saturation",
    "C44_mass_partial",
    "C44_mass_refuted",
    "C44_refused"
   ],
   "note": "The saturation diagnostic is exact for the owned cells in their order, and the vector is completely overwritten. The mass diagnostic is density times volume: it equals the stored mass only where porosity times saturation is 1; refuted otherwise (tdympfao.c and tdyfvtpf.c use the same expression)."
  },
  {
   "property": "C45",
   "status": "partial",
   "theorems": [
    "C45_balance",
    "C45_presolve",
    "C45_flux_exists",
    "C45_carried_partial",
    "C45_fresh_water_refuted",
    "C45_gravity_refuted"
   ],
   "note": "Both equations of a salinity step are proved to be net outflow plus change of storage minus source, for every mesh and state. The statement itself is refuted: the advective salt flux is the pressure-driven part of the water flux whatever the concentration (fresh water carries salt) and the gravity-driven part carries none. It holds where the concentration upstream is 1 and gravity does not act (C45_carried_partial)."
  },
  {
   "property": "C46",
   "status": "partial",
   "theorems": [
    "C46_same_region_test_exact",
    "C46_last_addition_wins",
    "C46_additions_accumulate_refuted",
    "C46_cell_beyond_region",
    "C46_invalid_cell_is_error_refuted"
   ],
   "note": "The same-region test is exact; a second addition replaces the first (refuted) and a cell beyond the region array reads out of bounds instead of being an error (refuted)."
  },
  {
   "property": "C47",
   "status": "proved",
   "theorems": [
    "C47_extracted_field_exact",
    "C47_prognostic_field_exact",
    "C47_missing_field_is_error",
    "C47_prognostic_refused"
   ],
   "note": "Proved for every block size and vector."
  },
  {
   "property": "C48",
   "status": "proved",
   "theorems": [
    "C48_symmetry_check_exact"
   ],
   "note": "Proved for every matrix and tolerance."
  },
  {
   "property": "C49",
   "status": "proved",
   "theorems": [
    "C49_integer_array",
    "C49_real_array",
    "C49_integer_array_freed",
    "C49_real_array_freed"
   ],
   "note": "Proved for any number of dimensions, extents and prior heap; deallocation frees exactly the array's blocks."
  },
  {
   "property": "C50",
   "status": "proved",
   "theorems": [
    "C50_timers",
    "C50_stages"
   ],
   "note": "Timers and stages, within a cycle: equal answers exactly for equal names, one PETSc registration per distinct name."
  },
  {
   "property": "C51",
   "status": "partial",
   "theorems": [
    "C51_viscosity_positive",
    "C51_brine_denser_partial",
    "C51_viscosity_temperature_refuted",
    "C51_brine_excess_refuted",
    "C51_brine_excess_partial",
    "C51_fresh_density",
    "C51_viscosity_cold_partial"
   ],
   "note": "Viscosity positive; brine denser than fresh water in a physical range; fresh-water viscosity increases with temperature (refuted, sign of 0.045) and the density excess is not the published one (refuted, 80*3*T instead of 80+3*T)."
  },
  {
   "property": "C52",
   "status": "partial",
   "theorems": [
    "C52_reduction_factor_refuted",
    "C52_reduction_factor_unused"
   ],
   "note": "Refuted: the factor is hard-coded to 1/4 and the configured value is never used."
  },
  {
   "property": "C53",
   "status": "partial",
   "theorems": [
    "C53_destroy_partial",
    "C53_destroy_refuted"
   ],
   "note": "Safe before a discretization is chosen and after the options are read, if mode and discretization are not changed later; refuted in the window between and after late changes."
  },
  {
   "property": "C54",
   "status": "partial",
   "theorems": [
    "C54_footer_partial",
    "C54_footer_refuted"
   ],
   "note": "Proved when the simulator is set up once; repeated setups keep the first metadata (refuted)."
  },
  {
   "property": "C55",
   "status": "proved",
   "theorems": [
    "C55_faces_between_regions_closed"
   ],
   "note": "Proved for every mesh and region assignment."
  },
  {
   "property": "C56",
   "status": "partial",
   "theorems": [
    "C56_level_faces_partial",
    "C56_gravity_refuted"
   ],
   "note": "Holds for sub-faces without gravity term; refuted with gravity because the gravity vector is not cleared between regions."
  },
  {
   "property": "C57",
   "status": "partial",
   "theorems": [
    "C57_salinity_partial",
    "C57_salinity_upwind_refuted",
    "C57_salinity_seepage_refuted",
    "C57_th_partial",
    "C57_th_gravity_refuted"
   ],
   "note": "Salinity: Darcy's law where the sign of the pressure term agrees with that of the full drive and no seepage face is dry; refuted otherwise (upwinding by the pressure term alone, seepage test missing). Water and heat: Darcy's law up to rounding on level faces; gravity is missing altogether. The Richards mode is C41."
  },
  {
   "property": "C58",
   "status": "partial",
   "theorems": [
    "C58_balance_partial",
    "C58_parallel_refuted",
    "C58_energy_flux",
    "C58_storage"
   ],
   "note": "Balance of both equations without ghost cells (or if reading behind the rate vector were harmless); energy flux and storage rates proved. With ghost cells the function always reads beyond the end of U_t (C58_parallel_refuted, for every mesh with ghosts). The storage rate is that of the stored energy only if the stored derivatives are right; du_dP and du_dT are never assigned (C62)."
  },
  {
   "property": "C59",
   "status": "proved",
   "theorems": [
    "C59_state",
    "C59_local",
    "C59_salt",
    "C59_default_curves"
   ],
   "note": "All four update functions, any number of cells and any history of curve assignments in which every cell has one saturation curve and relative permeability curves of one type are assigned in order (C05); the curves set up by default satisfy this (C59_default_curves). Independence of earlier states for the constant and exponential density and constant viscosity; for brine, C59_salt gives the values."
  },
  {
   "property": "C60",
   "status": "partial",
   "theorems": [
    "C60_consistent_partial",
    "C60_brine_refuted"
   ],
   "note": "Discharges the hypothesis 'consistent' of the Jacobian theorems C32 and C42 for constant or exponential density and constant viscosity, at pressures other than the reference pressure (a kink) and 101325 Pa (exponential density). Refuted for the Batzle-Wang density: the stored derivative is 0 after any history."
  },
  {
   "property": "C61",
   "status": "partial",
   "theorems": [
    "C61_serial_partial",
    "C61_ghosts_refuted",
    "C61_salinity_ghosts_refuted"
   ],
   "note": "Proved without ghost cells. Refuted on every process with ghost cells: out-of-range reads in the Richards (both schemes) and salinity modes."
  },
  {
   "property": "C62",
   "status": "partial",
   "theorems": [
    "C62_internal_energy",
    "C62_never_assigned",
    "C62_rate_refuted",
    "C62_temperature_refuted"
   ],
   "note": "Internal energy as documented. Refuted: du_dP and du_dT are never assigned, so the energy rate is not the derivative of the stored energy; no water property depends on the temperature unknown (density and viscosity use Tref, the only enthalpy model is constant)."
  },
  {
   "property": "C63",
   "status": "partial",
   "theorems": [
    "C63_boundary_partial",
    "C63_error_reported",
    "C63_mixed_curves_refuted",
    "C63_default_curves"
   ],
   "note": "Proved for all meshes with distinctly numbered boundary faces and all boundary functions, in all modes, provided the cells with a Gardner curve are all cells or at most six; otherwise the lookup of another cell's curve is out of range (C63_mixed_curves_refuted)."
  },
  {
   "property": "C64",
   "status": "partial",
   "theorems": [
    "C64_reference_water",
    "C64_constant_partial",
    "C64_pressure_refuted",
    "C64_salt_refuted"
   ],
   "note": "Boundary density, viscosity and enthalpy are computed once at setup, at the reference pressure and temperature and zero salt content, and never updated: right for constant properties, refuted for exponential and Batzle-Wang density."
  },
  {
   "property": "C65",
   "status": "proved",
   "theorems": [
    "C65_quadrilateral",
    "C65_hexahedron",
    "C65_quadrature"
   ],
   "note": "All 8 functions on quadrilaterals and all 24 on hexahedra, at all points and for all maps: flux on every face, divergence, and the numbering of the lumped quadrature."
  },
  {
   "property": "C66",
   "status": "proved",
   "theorems": [
    "C66_patch_test"
   ],
   "note": "Proved for every star of affine cells. LAPACK is represented by its contract; that the local matrix is nonsingular is proved, not assumed."
  },
  {
   "property": "C67",
   "status": "proved",
   "theorems": [
    "C67_symmetric",
    "C67_flow",
    "C67_uniform",
    "C67_conserves"
   ],
   "note": "For exact solutions of the local systems. Entries below 1e4 eps of the largest, which the assembly drops, are not dropped in the model."
  },
  {
   "property": "C68",
   "status": "partial",
   "theorems": [
    "C68_conservation",
    "C68_outflow",
    "C68_unit_cells_partial",
    "C68_volume_refuted"
   ],
   "note": "Flows cancel on every mesh and the divergence is the outflow; refuted as a mass balance because the storage term lacks the cell volume (true for cells of volume one)."
  },
  {
   "property": "C69",
   "status": "partial",
   "theorems": [
    "C69_state_partial",
    "C69_residual_saturation_refuted"
   ],
   "note": "Proved for residual saturation zero; refuted otherwise: Sr is allocated but never filled, so the saturation can fall below the residual one."
  },
  {
   "property": "C70",
   "status": "partial",
   "theorems": [
    "C70_compressed",
    "C70_shared_offsets",
    "C70_no_elements_refuted"
   ],
   "note": "Proved for tables with at least one row. Refuted for a process without cells, vertices or faces: the conversion reads num[0]."
  },
  {
   "property": "C71",
   "status": "partial",
   "theorems": [
    "C71_cells",
    "C71_vertices",
    "C71_faces",
    "C71_room",
    "C71_edges_refuted"
   ],
   "note": "Cells, vertices and faces proved for every mesh of uniform cells whose closures fit their arrays. Refuted for the cells of an edge: only the first two are stored."
  },
  {
   "property": "C72",
   "status": "partial",
   "theorems": [
    "C72_face_vertices",
    "C72_cell_count_partial",
    "C72_cell_count_refuted"
   ],
   "note": "Vertices of faces and (boundary) faces around vertices proved. Refuted for the number of cells of a face returned by the access functions."
  },
  {
   "property": "C73",
   "status": "partial",
   "theorems": [
    "C73_faces",
    "C73_dual_basis",
    "C73_oriented",
    "C73_parallelepiped",
    "C73_prism",
    "C73_distorted_refuted",
    "C73_gradient",
    "C73_subface_areas",
    "C73_setup",
    "C73_centroid_refuted",
    "C73_three_faces_refuted"
   ],
   "note": "Faces, dual basis, sign, exactness for linear pressures, sub-face areas and storage proved. Refuted: in a cell with a pushed-in corner the sign is wrong (C73_distorted_refuted); the sub-face centroids are written to another array than the one they are read from (C73_centroid_refuted); a vertex with other than three faces in a cell leads to undefined behaviour instead of an error (C73_three_faces_refuted)."
  },
  {
   "property": "C74",
   "status": "proved",
   "theorems": [
    "C74_determined",
    "C74_patch_test"
   ],
   "note": "Proved for every vertex whose numbering is as SetupUpwindFacesForSubcell makes it (well_numbered, two_sided) and whose sub-cells are as in C73; C74_determined says that the interface pressures are determined by the scheme's demands. The example is two unit cubes with a full tensor."
  },
  {
   "property": "C75",
   "status": "partial",
   "theorems": [
    "C75_opposite",
    "C75_two_point",
    "C75_orthogonal_partial",
    "C75_series_refuted",
    "C75_heat_axis_partial",
    "C75_heat_refuted",
    "C75_salinity_refuted"
   ],
   "note": "Opposite entries, two-point form and exactness for orthogonal faces and homogeneous isotropic permeability proved. Refuted: layers in series (C75_series_refuted), heat on faces with negative normals (C75_heat_refuted; right for positive axes), salt (C75_salinity_refuted)."
  },
  {
   "property": "C76",
   "status": "partial",
   "theorems": [
    "C76_connected",
    "C76_numbered",
    "C76_vertex",
    "C76_missed_face_refuted",
    "C76_no_levels_refuted"
   ],
   "note": "Proved for every vertex with conforming surroundings and a way round it in two levels (C77 is about how that is found): every face gets exactly one connection, and the numbers satisfy well_numbered and two_sided, the hypotheses of the theorems about the local systems (C36-C39, C74). Refuted without a complete way round: a missed boundary face keeps is_face_up = -1, is not counted as upwind (test == 1) but placed as upwind (test != 0), so that a face disappears from the vertex although success is reported; without levels the unknown -1 is used as index."
  },
  {
   "property": "C77",
   "status": "partial",
   "theorems": [
    "C77_circular",
    "C77_circular_found",
    "C77_order",
    "C77_order_found",
    "C77_vertex",
    "C77_tilted_refuted",
    "C77_uneven_levels_refuted"
   ],
   "note": "Proved for every conforming vertex with at least two cells whose neighbourhood is layered (vertical prisms, columns not ending at the vertex): any result is a way round the vertex, a result exists if the cells of each level are side by side, and the numbering of C76 follows. Simplification: a face of the vertex outside the table of faces counts as not belonging to a cell. Refuted outside these meshes: with tilted columns side faces are not recognised and a face is lost although success is reported; with one cell above and two below the second entry of a list of length one is read."
  },
  {
   "property": "C78",
   "status": "partial",
   "theorems": [
    "C78_levels",
    "C78_sound",
    "C78_vertex",
    "C78_setup_partial",
    "C78_one_layer_refuted",
    "C78_uneven_refuted"
   ],
   "note": "Proved for every mesh of vertical columns with enough room in the rows, for every numbering; combined with C77 it gives well formed local systems. Partial for the row size of the code: proved where no level has as many cells as the vertex with most cells. Refuted otherwise: on every mesh with a local vertex of the largest number of cells all on one side of it (all meshes of one layer) an integer is written behind a row; a vertex with unequal numbers above and below is refused, but the caller ignores the error and the numbering then indexes with -1. Rows are modelled as optional lists with a capacity (None for the initial -1)."
  },
  {
   "property": "C79",
   "status": "partial",
   "theorems": [
    "C79_maps",
    "C79_shared",
    "C79_wheeler_yotov",
    "C79_mixed_refuted",
    "C79_tolerance_refuted"
   ],
   "note": "Proved for every mesh whose cells are images of the square or cube (`boxes`), in every order of closures and global numbering: vertices, faces with signs, unknowns; sharing; the link to the hypotheses of the Wheeler-Yotov theorems. Refuted: mixed meshes are not refused, the error code 56 becomes the number of vertices per cell and a buffer is overrun; corners whose computed image misses the vertex by more than 1e-12 are silently mapped to point 0 and the setup then reads before an array. Checks compiled only with PETSC_USE_DEBUG are left out."
  },
  {
   "property": "C80",
   "status": "partial",
   "theorems": [
    "C80_local",
    "C80_inverse",
    "C80_system",
    "C80_setup",
    "C80_quadrature",
    "C80_open_boundary",
    "C80_again",
    "C80_repeated_refuted",
    "C80_singular_refuted"
   ],
   "note": "Proved: local system, inverse, global system as weak form, one-dimensional quadrature, what a missing boundary pressure means (pressure zero, not no flow), what a second assembly does. Refuted: the permeability is inverted in place, so a second assembly solves another problem; singular permeabilities pass unnoticed. One process owns all cells in the global theorem; the local one has no such restriction."
  },
  {
   "property": "C81",
   "status": "proved",
   "theorems": [
    "C81_cell",
    "C81_walls",
    "C81_between",
    "C81_normal_flux"
   ],
   "note": "Proved for every solution of the assembled system."
  },
  {
   "property": "C82",
   "status": "proved",
   "theorems": [
    "C82_solvable"
   ],
   "note": "Proved for full and lumped quadrature; in exact arithmetic, with the solution as a vector of numbers 0..size-1."
  },
  {
   "property": "C83",
   "status": "partial",
   "theorems": [
    "C83_linear",
    "C83_lumped_refuted"
   ],
   "note": "Proved for full quadrature: the solution exists, is unique and exact. Refuted for lumped quadrature: two unit squares, pressure y."
  },
  {
   "property": "C84",
   "status": "partial",
   "theorems": [
    "C84_setup",
    "C84_setup_partial",
    "C84_overrun_refuted",
    "C84_rows",
    "C84_temperature_rows",
    "C84_flux",
    "C84_placed",
    "C84_jacobian",
    "C84_corner_columns_partial",
    "C84_corner_columns_refuted",
    "C84_salt_refuted"
   ],
   "note": "Proved for RICHARDS; TH and SALINITY overrun Temp_Trans and Psi_Trans on some meshes (refuted, with the condition under which they do not). The columns of corners are permuted wrongly for rotated orders (refuted, proved for the others), and the salt matrix stays empty (refuted). The numbering of the mesh setup is a hypothesis (good_tmesh)."
  },
  {
   "property": "C85",
   "status": "partial",
   "theorems": [
    "C85_balance_partial",
    "C85_conservation_partial",
    "C85_corner_refuted",
    "C85_repeated_refuted",
    "C85_closed_refuted"
   ],
   "note": "Proved for meshes and conditions without flux through corners; refuted at corners, for repeated calls and for a closed boundary without a pressure function."
  },
  {
   "property": "C86",
   "status": "partial",
   "theorems": [
    "C86_velocity_partial",
    "C86_conservative_partial",
    "C86_signs",
    "C86_corner_refuted",
    "C86_rest_refuted"
   ],
   "note": "Proved: no fault; on local faces away from the corners of the mesh, velocity times area equals the multi-point flux of the stored matrix; without gravity and corners, the velocities of a solution of the steady system balance the sources; exact formula with the sign -1 at corners (C86_signs). Refuted: the sign at corners; water at rest gets a velocity because boundary pressures carry no gravity term. The error that the same loops accumulate is C107."
  },
  {
   "property": "C87",
   "status": "partial",
   "theorems": [
    "C87_pressure_partial",
    "C87_storage",
    "C87_temperature_partial",
    "C87_temperature_refuted",
    "C87_boundary_refuted",
    "C87_gravity_refuted"
   ],
   "note": "Proved for the pressure columns of cells away from the boundary without gravity, and for all storage terms when the stored derivatives are those of the state. For the temperature columns it is proved exactly which term of each sub-face is wrong and that the rest is the derivative of the two fluxes. Refuted: temperature columns of neighbouring cells, boundary faces, gravity factor. The arrays drho_dT, dS_dT, dvis_dT, du_dP and du_dT are never assigned by the code (see C62)."
  },
  {
   "property": "C88",
   "status": "proved",
   "theorems": [
    "C88_cells",
    "C88_vertices",
    "C88_faces",
    "C88_not_skipped",
    "C88_order"
   ],
   "note": "Proved. What DMPlexGetPointGlobal returns (number, or -(number+1) for ghosts) is a hypothesis; the rows of the tables are those of C70-C72. edges->is_local is not modelled, nothing reads it."
  },
  {
   "property": "C89",
   "status": "partial",
   "theorems": [
    "C89_rearranged",
    "C89_each",
    "C89_inner_partial",
    "C89_boundary_partial",
    "C89_diagonal_refuted",
    "C89_warped_refuted"
   ],
   "note": "Proved for flat convex faces whose vertices are in order or with the last two exchanged; refuted when the first two vertices are opposite to each other (normal not a number) and for warped faces (length below one)."
  },
  {
   "property": "C90",
   "status": "partial",
   "theorems": [
    "C90_inner_partial",
    "C90_boundary_partial",
    "C90_store_partial",
    "C90_store_refuted"
   ],
   "note": "Values proved after the orientation of C89. Refuted: unit_vec_up_dn has rows of two numbers and three are written, on every mesh; with rows of three the attributes are stored correctly (C90_store_partial)."
  },
  {
   "property": "C91",
   "status": "partial",
   "theorems": [
    "C91_cells_partial",
    "C91_warped_refuted"
   ],
   "note": "Proved for convex cells with flat faces; refuted for warped faces: neighbouring hexahedra split a common face along different diagonals, so volumes do not add up. Of AllocateCells only the sizes are modelled."
  },
  {
   "property": "C92",
   "status": "partial",
   "theorems": [
    "C92_faces_partial",
    "C92_memory_refuted",
    "C92_tables"
   ],
   "note": "C92_memory_refuted: UpdateMapsC2F_F2C_F2V frees face_to_cell and hands nothing back, so CreateInternalFaces reads freed memory for every mesh with two neighbouring cells. C92_faces_partial: with the table handed back everything is as it should be (also the renumbering of cell_to_face in place, and the search over as many faces as a cell has vertices). Not stated: num_boundary_faces is set to the number of all faces although no boundary faces are created, so boundary conditions have no effect on such meshes; face_to_vertex_natural and the map from vertices to cells are not modelled."
  },
  {
   "property": "C93",
   "status": "partial",
   "theorems": [
    "C93_map_partial",
    "C93_too_many_refuted"
   ],
   "note": "C93_too_many_refuted: whenever more than 24 cells share a vertex, the set-up writes past the last row of vertex_to_cell; the test comes after the write and looks at the wrong vertex. C93_map_partial: up to 24 cells the map is exact."
  },
  {
   "property": "C94",
   "status": "partial",
   "theorems": [
    "C94_faces_partial",
    "C94_room_refuted"
   ],
   "note": "C94_room_refuted: unit_vec_up_dn has rows of two numbers and three are written, for every mesh with a connection. C94_faces_partial: given room (and the table of C92 handed back), all attributes are right for convex cells with flat faces; the two cells of a common side must run through it in opposite directions, which says that they do not overlap. ComputeGeoAttrOfUGridFaces, whose results nothing reads, is not modelled."
  },
  {
   "property": "C95",
   "status": "partial",
   "theorems": [
    "C95_one_field_partial",
    "C95_one_process_refuted",
    "C95_collision_refuted",
    "C95_regions_partial",
    "C95_regions_refuted"
   ],
   "note": "C95_one_field_partial: with one unknown per cell the numbers are right for every distribution. C95_one_process_refuted, C95_collision_refuted: with several unknowns per cell they are multiples of the right ones, and different cells share a number on several processes. C95_regions_partial / C95_regions_refuted: region numbers are right exactly when PETSc's default split of the file agrees with the distribution of the mesh; otherwise memory outside the vector is accessed."
  },
  {
   "property": "C96",
   "status": "partial",
   "theorems": [
    "C96_places",
    "C96_complete",
    "C96_subface",
    "C96_rest_partial",
    "C96_tilted_refuted",
    "C96_layers",
    "C96_layers_two_point",
    "C96_axes_two_point",
    "C96_tiny_refuted",
    "C96_negative_refuted",
    "C96_two_point_partial",
    "C96_two_point_refuted"
   ],
   "note": "C96_rest_partial: constant density, one symmetric permeability around the vertex with no negative or tiny entries, and faces whose K-normal lies along the line between the centres. C96_tilted_refuted: with an off-diagonal permeability water at rest flows. C96_tiny_refuted: permeability below 2^-52 m^2 gets no gravity. C96_negative_refuted: negative entries are dropped. C96_two_point_partial / C96_two_point_refuted: with two-point fluxes, layers of different permeability are never at rest."
  },
  {
   "property": "C97",
   "status": "partial",
   "theorems": [
    "C97_saved_partial",
    "C97_growth_refuted",
    "C97_number",
    "C97_sizes",
    "C97_most",
    "C97_mixed_refuted",
    "C97_unsupported_refuted"
   ],
   "note": "C97_saved_partial: closures are kept whole while none has more than 432 points. C97_growth_refuted: a longer one makes the code free the table of its caller and go on with the freed memory. C97_mixed_refuted and C97_unsupported_refuted: meshes with mixed or unsupported cells are not refused; the error code 83 is used as a size."
  },
  {
   "property": "C98",
   "status": "partial",
   "theorems": [
    "C98_quadratic2D",
    "C98_wheeler2006_1",
    "C98_wheeler2006_2",
    "C98_wheeler2012_1_partial",
    "C98_wheeler2012_1_refuted",
    "C98_wheeler2012_2",
    "C98_problem3",
    "C98_constant",
    "C98_constant2D_partial",
    "C98_constant2D_refuted",
    "C98_quadratic3D_partial",
    "C98_quadratic3D_refuted",
    "C98_transient_refuted",
    "C98_permeability",
    "C98_selected",
    "C98_unknown_refuted",
    "C98_smooth2",
    "C98_smooth3",
    "C98_lower2"
   ],
   "note": "Refuted parts: the velocity of Wheeler2012 problem 1 writes only the first two entries of the output array whatever the number of points; the constant velocity writes three entries per point although two-dimensional callers pass two; the quadratic three-dimensional forcing uses entry 3 of the permeability instead of 4; the transient forcing sets only the first point; unknown problem numbers are not refused. Not modelled: the uninitialised problem number when the option is absent, the random perturbation, the column geometry and the error norms."
  },
  {
   "property": "C99",
   "status": "partial",
   "theorems": [
    "C99_getters",
    "C99_getters_refuted",
    "C99_pressure",
    "C99_saturation_partial",
    "C99_saturation_refuted",
    "C99_exodus_refuted",
    "C99_ascii_refuted",
    "C99_format",
    "C99_fields_refuted",
    "C99_document_partial",
    "C99_references",
    "C99_processes_refuted",
    "C99_other_format_refuted",
    "C99_kept",
    "C99_times",
    "C99_times_refuted",
    "C99_header_partial",
    "C99_shapes_refuted",
    "C99_header_refuted"
   ],
   "note": "Refuted parts: the saturation is converted to the natural order twice in HDF5 output; Exodus output mixes the global and the natural order; the ASCII file name of the saturation overruns its buffer by one byte; with several unknowns per cell the getters and the output fail or read outside a vector; on several processes, or without HDF5 output, the XML description is malformed; times that agree to six digits replace each other's output; pyramids, mixed meshes, two-dimensional meshes and several unknowns give a wrong or undefined XML header. Not modelled: Exodus and HDF5 file contents beyond names and values, the local numbers of vertices on several processes, races between processes writing the same XML file."
  },
  {
   "property": "C100",
   "status": "partial",
   "theorems": [
    "C100_combinations",
    "C100_residual",
    "C100_residual_refuted",
    "C100_jacobian_partial",
    "C100_jacobian_refuted",
    "C100_random_field",
    "C100_default_field_refuted",
    "C100_file_field_partial",
    "C100_file_field_refuted",
    "C100_initial_conditions_partial",
    "C100_initial_conditions_refuted",
    "C100_previous_partial",
    "C100_previous_refuted",
    "C100_materials_partial",
    "C100_materials_refuted"
   ],
   "note": "Refuted parts: runs with salt get the Jacobian of the water-only mode and two time formulations get none; the default initial field sets temperatures and mass fractions to 101325; -tdy_init_file is ignored with heat or salt; an unusable -ic_file is not reported; with PETSc's time stepper the previous solution starts as zero; the caller's molecular weight of salt is replaced. Not modelled: TDySetup, line-search and convergence call-backs, profiling."
  },
  {
   "property": "C101",
   "status": "partial",
   "theorems": [
    "C101_porosity_partial",
    "C101_porosity_error_refuted",
    "C101_porosity_unknowns_refuted",
    "C101_permeability_partial",
    "C101_permeability_refuted",
    "C101_permeability_error",
    "C101_name_refuted"
   ],
   "note": "Refuted parts: errors while reading porosities are ignored and an uninitialised pointer is used; with several unknowns per cell values go to the wrong cells; without -anisotropic_perm the values of the first three cells of each process become the diagonal of all its tensors (undefined with fewer than three cells); a data set name of maximal length overflows its buffer. Only meshes managed by TDycore itself; two-dimensional tensors are those of C23."
  },
  {
   "property": "C102",
   "status": "partial",
   "theorems": [
    "C102_one_unknown",
    "C102_two_unknowns_partial",
    "C102_salinity_refuted",
    "C102_fields_refuted",
    "C102_numbers_refuted",
    "C102_name"
   ],
   "note": "Refuted parts: with salt the statistics mix pressures and mass fractions; temperatures are reported as zero when the mesh has one field; cells are identified by positions in the global order. Rounding of the printed numbers is not modelled."
  },
  {
   "property": "C103",
   "status": "partial",
   "theorems": [
    "C103_functions_partial",
    "C103_functions_refuted",
    "C103_many_refuted",
    "C103_names_partial",
    "C103_short_names_refuted",
    "C103_two_names_refuted",
    "C103_name_again_refuted",
    "C103_points_partial",
    "C103_points_refuted",
    "C103_mesh_partial",
    "C103_c_constructors",
    "C103_mesh_refuted"
   ],
   "note": "Holds when functions of one kind are handed over before the other kind and there are at most 31 of each. Refuted: mixed orders (shared counter), 32 or more functions, names shorter than 32 characters, two names, functions that read the coordinates, constructors of several simulators."
  },
  {
   "property": "C104",
   "status": "partial",
   "theorems": [
    "C104_balance_partial",
    "C104_balance_bound",
    "C104_balance_refuted",
    "C104_symmetric"
   ],
   "note": "Refuted when an entry of a stencil is less than 10^4/2^52 of the greatest entry of the same vertex: it is dropped from the matrix although the right hand side keeps its boundary pressure. The size of the difference is bounded. The solvers of the small dense systems are taken to return solutions."
  },
  {
   "property": "C105",
   "status": "partial",
   "theorems": [
    "C105_left_partial",
    "C105_fields",
    "C105_many",
    "C105_all_released_refuted",
    "C105_before_setup_refuted",
    "C105_dae_refuted",
    "C105_fvtpf",
    "C105_fvtpf_before_setup"
   ],
   "note": "Proved for MPFA-O: no double release, no access through NULL, exact count and names of the blocks left over, additive over successive simulations. Missing from full release, and refuted with one hexahedron: TDyDestroy_MPFAO never frees K, K0, porosity, Kappa, Kappa0; TDyMeshDestroy never frees bc_type, projected_area, dist, dist_wt_up, dist_up_dn, unit_vec_up_dn of the faces nor the connected region. Refuted: destroying an MPFA-O simulator before TDySetup, or one with the DAE formulation (whose setup returns at once), passes a NULL mesh to TDyMeshDestroy. TDyDestroy_FVTPF is safe at any time but frees only thirteen arrays and neither the mesh nor the context. Temporaries of the mesh construction, closures that outgrow their first room (C97) and the other parts of the TDy object are not in this model."
  },
  {
   "property": "C106",
   "status": "partial",
   "theorems": [
    "C106_verdict_partial",
    "C106_reports",
    "C106_runs",
    "C106_missing",
    "C106_unreadable",
    "C106_nan_refuted",
    "C106_skip_refuted",
    "C106_tolerances",
    "C106_case_refuted",
    "C106_discrete"
   ],
   "note": "Proved: the verdict is equivalent to the agreement of all blocks, keys and values (values that are numbers, one per line); for files written by TDycore it means agreement of the sampled cells and of maximum, minimum, mean and samples of every field; missing files fail; which tolerance is used for which kind. Refuted: a result that is NaN passes every comparison; setting skip_check_regression to any value, also False, skips the comparison; a tolerance type is accepted in capitals but then not recognised. Not modelled: comparison of HDF5, ASCII and restart files, several values per line, solution blocks, running the program."
  },
  {
   "property": "C107",
   "status": "partial",
   "theorems": [
    "C107_velocities",
    "C107_error_partial",
    "C107_mean",
    "C107_zero_partial",
    "C107_units_refuted",
    "C107_wrong_refuted",
    "C107_corner_refuted"
   ],
   "note": "Proved: the velocities are those of C86; on meshes without corners the accumulated error is the sum of the squares of flux over area of the whole face minus prescribed flux through the sub-face; the printed number is the root of the mean over all processes; it is zero exactly if every flux is the prescribed flux times the area of the face. Refuted: it does not vanish for exact fluxes, and vanishes for fluxes that are twice too large, because a velocity is compared with a flux; the sign at corners; without a prescribed velocity 0/0 is printed."
  },
  {
   "property": "C108",
   "status": "partial",
   "theorems": [
    "C108_cells",
    "C108_unsupported",
    "C108_vertices",
    "C108_vertex_count_refuted",
    "C108_adjacency",
    "C108_neighbours_partial",
    "C108_neighbours_refuted"
   ],
   "note": "Cells and vertices: proved for all files and distributions. Refuted: the number of vertices kept is the number of coordinates. Neighbours: proved when no cell uses vertex 1 of the file; refuted otherwise, since that vertex (number 0) is not counted as a vertex when the number of columns is determined. MatMeshToCellGraph is taken to connect cells with at least three common columns."
  },
  {
   "property": "C109",
   "status": "partial",
   "theorems": [
    "C109_sides",
    "C109_meshes",
    "C109_ghosts_refuted",
    "C109_centre_partial",
    "C109_centre_refuted",
    "C109_warped_refuted"
   ],
   "note": "Areas and centres of the sides of local cells are proved from a hypothesis on the tables of faces; C109_meshes derives that hypothesis for conforming meshes from C92_tables, with face_to_cell handed back as in C92. Refuted: faces of ghost cells only, centres of quadrilaterals that are not parallelograms, areas of warped faces. The two arrays are not read anywhere else in the code."
  },
  {
   "property": "C110",
   "status": "partial",
   "theorems": [
    "C110_own_entries",
    "C110_kept",
    "C110_centroids_refuted",
    "C110_corners_refuted",
    "C110_no_cells_refuted"
   ],
   "note": "Own entries are proved for nine of the eleven functions. Refuted: the function for the face centroids hands out the points of continuity (also C73), the function for the corners uses the offsets of the faces and hands out three corners, of other sub-cells but for the first; a process without cells reads outside an array (also C70). Entries of all arrays have one type in the model; that the arrays are filled with full rows is the result of C73 for the sub-cells themselves."
  },
  {
   "property": "C111",
   "status": "partial",
   "theorems": [
    "C111_counts",
    "C111_room_partial",
    "C111_one_process",
    "C111_two_faces",
    "C111_room_refuted",
    "C111_enclosed_refuted"
   ],
   "note": "Proved for processes with at most as many ghost cells as faces without an owned cell (always on one process; C111_two_faces gives a condition on each ghost cell). Refuted otherwise: a ghost cell enclosed by owned cells (C111_enclosed_refuted) makes the matrix refuse a column and the boundary pressures are stored outside the vector. The flags and numbers come from C88."
  },
  {
   "property": "C112",
   "status": "partial",
   "theorems": [
    "C112_given_partial",
    "C112_only_faces_refuted",
    "C112_none_refuted",
    "C112_references_refuted"
   ],
   "note": "Proved: all boundary faces are given, nothing twice, with their number. Refuted: edges and vertices of the boundary are given as well, because the label was completed with closures under the same value; a process without boundary faces gets an error; every round of asking and handing back leaves two references. What the PETSc functions do is assumed (external.md); the order of the points is not modelled."
  }
 ]
}