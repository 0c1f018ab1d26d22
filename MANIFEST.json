{
 "claims": [
  {
   "property": "C01",
   "status": "proved",
   "theorems": [
    "C01_direction_and_shape",
    "C01_direction_from_boundary_shape"
   ],
   "note": ""
  },
  {
   "property": "C02",
   "status": "proved",
   "theorems": [
    "C02_id_coords_bijection",
    "C02_id_coords_bijection_inner"
   ],
   "note": ""
  },
  {
   "property": "C03",
   "status": "proved",
   "theorems": [
    "C03_interior_boundary_partition"
   ],
   "note": ""
  },
  {
   "property": "C04",
   "status": "partial",
   "theorems": [
    "C04_single_cell_refuted",
    "C04_factor_matrix_refuted"
   ],
   "note": "REFUTED: on the 1x1x1 grid cell 0 is reported both as interior and as boundary, and get_cells_G raises UnboundLocalError."
  },
  {
   "property": "C05",
   "status": "proved",
   "theorems": [
    "C05_remove_boundaries",
    "C05_both_is_interior"
   ],
   "note": ""
  },
  {
   "property": "C06",
   "status": "proved",
   "theorems": [
    "C06_extract_boundaries",
    "C06_extract_boundaries_sorted"
   ],
   "note": ""
  },
  {
   "property": "C07",
   "status": "proved",
   "theorems": [
    "C07_neighbors_interior",
    "C07_neighbors_with_boundary",
    "C07_boundary_cell_rejected"
   ],
   "note": ""
  },
  {
   "property": "C08",
   "status": "proved",
   "theorems": [
    "C08_neighbors_coords_agree"
   ],
   "note": ""
  },
  {
   "property": "C09",
   "status": "proved",
   "theorems": [
    "C09_neighbors_symmetric"
   ],
   "note": ""
  },
  {
   "property": "C10",
   "status": "proved",
   "theorems": [
    "C10_boundaries_complete_neighbors",
    "C10_boundary_cell_rejected",
    "C10_boundaries_coords_agree"
   ],
   "note": ""
  },
  {
   "property": "C11",
   "status": "proved",
   "theorems": [
    "C11_boundary_cell_one_neighbor"
   ],
   "note": ""
  },
  {
   "property": "C12",
   "status": "partial",
   "theorems": [
    "C12_lookup_by_coords",
    "C12_arrays_follow_ids",
    "C12_zero_coordinate_rejected",
    "C12_lookup_by_coords_refuted"
   ],
   "note": "REFUTED for unify=False on 1D/2D grids: a cell with a zero flow coordinate is rejected by coordinates (AssertionError) but accepted by id. Proved for unify=True, for 3D, and for positive flow coordinates."
  },
  {
   "property": "C13",
   "status": "proved",
   "theorems": [
    "C13_spacing"
   ],
   "note": ""
  },
  {
   "property": "C14",
   "status": "proved",
   "theorems": [
    "C14_areas_volumes"
   ],
   "note": ""
  },
  {
   "property": "C15",
   "status": "proved",
   "theorems": [
    "C15_centers"
   ],
   "note": ""
  },
  {
   "property": "C16",
   "status": "proved",
   "theorems": [
    "C16_corners"
   ],
   "note": ""
  },
  {
   "property": "C17",
   "status": "partial",
   "theorems": [
    "C17_set_one_cell_partial",
    "C17_rejected",
    "C17_set_one_cell_refuted"
   ],
   "note": "REFUTED with unify=True and in 2D/3D: set_prop indexes the flat array with a coordinate tuple, so setting one cell always raises and changes nothing. Proved for unify=False, at most one flow direction, non-zero flow coordinate."
  },
  {
   "property": "C20",
   "status": "proved",
   "theorems": [
    "C20_symmetric_positive"
   ],
   "note": ""
  },
  {
   "property": "C21",
   "status": "proved",
   "theorems": [
    "C21_series_coupling",
    "C21_boundary_mean_refuted"
   ],
   "note": "Also: the reported factor towards a boundary cell of different permeability is an arithmetic mean when the interior is uniform (refuted part)."
  },
  {
   "property": "C22",
   "status": "proved",
   "theorems": [
    "C22_matrix_agrees"
   ],
   "note": ""
  },
  {
   "property": "C23",
   "status": "partial",
   "theorems": [
    "C23_matrix_agrees_partial",
    "C23_spurious_couplings",
    "C23_matrix_refuted"
   ],
   "note": "REFUTED: in every 3D grid the matrix couples cells wrapping around the end of a layer. Proved: agreement for all other pairs, and the exact value pattern on wrapping pairs."
  },
  {
   "property": "C24",
   "status": "proved",
   "theorems": [
    "C24_matrix_symmetric"
   ],
   "note": ""
  },
  {
   "property": "C80",
   "status": "partial",
   "theorems": [
    "C80_attributes_current",
    "C80_set_prop_refuted"
   ],
   "note": "Proved for any sequence of set_props. REFUTED for direct calls of set_prop, which leave the attributes stale."
  },
  {
   "property": "C18",
   "status": "partial",
   "theorems": [
    "C18_set_up_first_partial",
    "C18_direct_current",
    "C18_frozen",
    "C18_stale_refuted"
   ],
   "note": "REFUTED: get_cell_k, get_cell_G and is_isotropic (and through it get_cells_G) answer from the old properties after set_props; get_cell_k and get_cell_G are frozen for ever once answered. Proved: get_prop and get_cells_k are always current, and everything is current if each grid is updated only before its first memoised query."
  },
  {
   "property": "C19",
   "status": "proved",
   "theorems": [
    "C19_transparent",
    "C19_accessors",
    "C19_capacity",
    "C19_recent"
   ],
   "note": ""
  },
  {
   "property": "C73",
   "status": "proved",
   "theorems": [
    "C73_boundaries"
   ],
   "note": "Exact arithmetic; any number of terms."
  },
  {
   "property": "C74",
   "status": "proved",
   "theorems": [
    "C74_heat"
   ],
   "note": ""
  },
  {
   "property": "C75",
   "status": "partial",
   "theorems": [
    "C75_rows_partial",
    "C75_rows_refuted"
   ],
   "note": "REFUTED: get_alpha has one entry per cell, so run stores one row per step and cell: (nsteps+1)*n rows. The partial theorem says exactly which rows."
  },
  {
   "property": "C76",
   "status": "partial",
   "theorems": [
    "C76_independent_partial",
    "C76_shared",
    "C76_refuted"
   ],
   "note": "REFUTED: init_rates is a view of the memoised get_zeros array, so two models built on one grid share it unless get_zeros was called with other arguments in between; the exact condition is proved."
  },
  {
   "property": "C25",
   "status": "partial",
   "theorems": [
    "C25_comp_type",
    "C25_rejected_refuted"
   ],
   "note": "Proved: comp_type always follows comp on fluids and grids (and set_comp itself, shared by the model), values >= 0 are accepted, negative ones raise ValueError. REFUTED part: a rejected negative value stays in comp."
  },
  {
   "property": "C27",
   "status": "proved",
   "theorems": [
    "C27_units_follow"
   ],
   "note": ""
  },
  {
   "property": "C28",
   "status": "partial",
   "theorems": [
    "C28_gravity_partial",
    "C28_gravity_refuted"
   ],
   "note": "REFUTED: set_units does not recompute the gravity term. Proved as long as the units are not changed after the density was last given."
  },
  {
   "property": "C81",
   "status": "proved",
   "theorems": [
    "C81_tables"
   ],
   "note": ""
  },
  {
   "property": "C66",
   "status": "proved",
   "theorems": [
    "C66_invertible"
   ],
   "note": ""
  },
  {
   "property": "C67",
   "status": "proved",
   "theorems": [
    "C67_range"
   ],
   "note": ""
  },
  {
   "property": "C68",
   "status": "proved",
   "theorems": [
    "C68_fitted"
   ],
   "note": ""
  },
  {
   "property": "C69",
   "status": "partial",
   "theorems": [
    "C69_set_scalers_partial",
    "C69_all_refuted"
   ],
   "note": "Proved for dictionaries not using the name 'all'. REFUTED part: 'all' sets only the time scaler."
  },
  {
   "property": "C62",
   "status": "proved",
   "theorems": [
    "C62_failing_compile"
   ],
   "note": ""
  },
  {
   "property": "C63",
   "status": "proved",
   "theorems": [
    "C63_names"
   ],
   "note": ""
  },
  {
   "property": "C64",
   "status": "partial",
   "theorems": [
    "C64_short_names_partial",
    "C64_short_names_refuted"
   ],
   "note": "REFUTED: 2D2P, 2D3P, 3D2P, 3D3P are unknown names. Proved for the names with one dimension or one phase."
  },
  {
   "property": "C65",
   "status": "proved",
   "theorems": [
    "C65_switching"
   ],
   "note": ""
  },
  {
   "property": "C78",
   "status": "proved",
   "theorems": [
    "C78_intersection"
   ],
   "note": ""
  },
  {
   "property": "C79",
   "status": "proved",
   "theorems": [
    "C79_remove_diag"
   ],
   "note": ""
  },
  {
   "property": "C26",
   "status": "proved",
   "theorems": [
    "C26_model_comp"
   ],
   "note": ""
  },
  {
   "property": "C29",
   "status": "proved",
   "theorems": [
    "C29_control_mode"
   ],
   "note": "From a cell without a well; calls that raise are caught, the last call on the cell succeeds."
  },
  {
   "property": "C30",
   "status": "proved",
   "theorems": [
    "C30_wells_interior",
    "C30_interior_cells"
   ],
   "note": ""
  },
  {
   "property": "C31",
   "status": "partial",
   "theorems": [
    "C31_failing_set_well_partial",
    "C31_other_axes",
    "C31_failing_set_well_refuted"
   ],
   "note": "REFUTED: set_well without a radius (KeyError) or on grids flowing along y, z, xz or yz (always ValueError) raises after having added the well. Proved: where all a well needs is present, a call raises exactly for non-interior cells and then changes nothing."
  },
  {
   "property": "C32",
   "status": "proved",
   "theorems": [
    "C32_r_eq",
    "C32_productivity"
   ],
   "note": ""
  },
  {
   "property": "C33",
   "status": "partial",
   "theorems": [
    "C33_well_object_partial",
    "C33_well_object_refuted"
   ],
   "note": "REFUTED: the well given as an object has no control mode and no rate set point and does not produce in the first step. Proved: rate, radius, skin, equivalent radius, geometry factor and pressure agree (q, r, s other than 0)."
  },
  {
   "property": "C34",
   "status": "partial",
   "theorems": [
    "C34_variants_partial",
    "C34_symbolic",
    "C34_press_refuted"
   ],
   "note": "REFUTED: the vectorised path takes only the exact word pressure as a pressure boundary (press, P, ... give a closed boundary). Proved: with that word at the same cells, spelling variants give the same runs; the symbolic path never depends on the spelling."
  },
  {
   "property": "C35",
   "status": "partial",
   "theorems": [
    "C35_all_boundaries_partial",
    "C35_all_boundaries_refuted"
   ],
   "note": "REFUTED: set_all_boundaries does not fill bdict, so the assembled systems ignore it. Proved: stored pressures, rates and the outcome agree with set_boundaries."
  },
  {
   "property": "C36",
   "status": "partial",
   "theorems": [
    "C36_compile_order_partial",
    "C36_compile_order_refuted"
   ],
   "note": "REFUTED: rate boundaries set after compile are not seen by the vectorised first step. Proved: symbolic systems always agree, vectorised ones for pressure boundaries."
  },
  {
   "property": "C82",
   "status": "proved",
   "theorems": [
    "C82_constructor"
   ],
   "note": ""
  },
  {
   "property": "C38",
   "status": "proved",
   "theorems": [
    "C38_diffusion_matrix"
   ],
   "note": ""
  },
  {
   "property": "C39",
   "status": "proved",
   "theorems": [
    "C39_compressible_regular",
    "C39_stored_regular"
   ],
   "note": "vectorised assembly"
  },
  {
   "property": "C41",
   "status": "proved",
   "theorems": [
    "C41_first_step_regular",
    "C41_all_steps_regular"
   ],
   "note": "vectorised assembly; a well with pwf = 0 is C56"
  },
  {
   "property": "C49",
   "status": "proved",
   "theorems": [
    "C49_append_only"
   ],
   "note": "In histories without raised exceptions."
  },
  {
   "property": "C50",
   "status": "partial",
   "theorems": [
    "C50_rows_partial",
    "C50_nsteps_refuted"
   ],
   "note": "REFUTED: a direct call of solve does not count in nsteps. Proved: tstep+1 rows in every successful history; nsteps agrees when only run is used."
  },
  {
   "property": "C51",
   "status": "partial",
   "theorems": [
    "C51_stored_partial",
    "C51_stored_refuted"
   ],
   "note": "REFUTED: a re-solved step stores a system for every attempt. Proved: the last stored system is the one solved for the last row; without wells one per step."
  },
  {
   "property": "C52",
   "status": "proved",
   "theorems": [
    "C52_terminates"
   ],
   "note": ""
  },
  {
   "property": "C53",
   "status": "partial",
   "theorems": [
    "C53_solver_partial",
    "C53_solver_refuted"
   ],
   "note": "REFUTED: a re-solved step uses cgs whatever was asked for. Proved without wells, for dense matrices and for cgs."
  },
  {
   "property": "C54",
   "status": "proved",
   "theorems": [
    "C54_limits"
   ],
   "note": ""
  },
  {
   "property": "C55",
   "status": "partial",
   "theorems": [
    "C55_return_refuted"
   ],
   "note": "REFUTED: a well that returns to rate control keeps its last rate, and the vectorised matrix keeps its pressure term."
  },
  {
   "property": "C58",
   "status": "proved",
   "theorems": [
    "C58_dry_run"
   ],
   "note": "For every history and every list of successful solve(update=False) calls: results and settings unchanged, next system (any assembly, threaded or not) the same."
  },
  {
   "property": "C59",
   "status": "proved",
   "theorems": [
    "C59_schedule"
   ],
   "note": "Every order of the equation tasks and of the row tasks gives the same outcome, matrix, right side and cached terms (a task is taken as atomic)."
  },
  {
   "property": "C72",
   "status": "partial",
   "theorems": [
    "C72_pressures_partial",
    "C72_pressures_refuted"
   ],
   "note": "REFUTED: setting pwf again at the same step records a second pressure; a well added after a step starts with one. Holds when every well is set once before the first step (later calls without pwf)."
  },
  {
   "property": "C77",
   "status": "partial",
   "theorems": [
    "C77_no_wells_partial",
    "C77_independent_refuted"
   ],
   "note": "REFUTED: cached symbolic terms are shared through the model. Holds for vectorised solves of models without wells."
  },
  {
   "property": "C37",
   "status": "partial",
   "theorems": [
    "C37_gradient_partial",
    "C37_gradient_refuted"
   ],
   "note": "REFUTED: the symbolic path uses the gradient value itself as a rate. Proved for the vectorised path: in every balanced step the boundary contributes transmissibility * spacing * gradient to the equation of its cell (level, 1D or 2D)."
  },
  {
   "property": "C43",
   "status": "proved",
   "theorems": [
    "C43_incompressible_balance",
    "C44_reported_error"
   ],
   "note": "Over any history of vectorised and symbolic steps with an exact solver: in a step that assembles one system and leaves the modes of the wells unchanged the recorded rates sum to 0."
  },
  {
   "property": "C44",
   "status": "proved",
   "theorems": [
    "C44_compressible_balance",
    "C44_reported_error"
   ],
   "note": "As C43; the sum of the rates is the sum of RHS*(p_new-p_old), and the reported error is 0 when that sum is not 0."
  },
  {
   "property": "C45",
   "status": "partial",
   "theorems": [
    "C45_cumulative_refuted",
    "C45_cumulative_partial"
   ],
   "note": "REFUTED: two balanced steps give a cumulative indicator of 1/2. Proved instead: after t balanced steps it is 1/t (rates of row 0 summing to 0)."
  },
  {
   "property": "C48",
   "status": "partial",
   "theorems": [
    "C48_vectorised_refuted",
    "C48_hydrostatic_partial"
   ],
   "note": "REFUTED: the vectorised path ignores gravity without rate wells. The symbolic path keeps hydrostatic pressures in all steps (compressible models)."
  },
  {
   "property": "C40",
   "status": "proved",
   "theorems": [
    "C40_closed_singular"
   ],
   "note": "Vectorised path; all histories of balanced steps."
  },
  {
   "property": "C46",
   "status": "proved",
   "theorems": [
    "C46_uniform_pressure"
   ],
   "note": "Vectorised path on all grids; symbolic path (no threads) on level grids; mixed histories."
  },
  {
   "property": "C47",
   "status": "proved",
   "theorems": [
    "C47_maximum_principle"
   ],
   "note": "Vectorised path on all grids; symbolic path (no threads) on level grids; mixed histories."
  },
  {
   "property": "C56",
   "status": "partial",
   "theorems": [
    "C56_zero_pwf_refuted",
    "C56_pressure_well_partial"
   ],
   "note": "REFUTED: with pwf = 0 the vectorised assembly puts the productivity in the right side and nothing in the matrix. Proved when no well is controlled by pressure 0."
  },
  {
   "property": "C57",
   "status": "partial",
   "theorems": [
    "C57_zero_pressure_refuted",
    "C57_pressures_partial"
   ],
   "note": "REFUTED: a pressure boundary of 0 makes vectorised solve raise. Proved for pressures other than the fluid weight on cells of one face."
  },
  {
   "property": "C60",
   "status": "partial",
   "theorems": [
    "C60_changed_boundary_refuted",
    "C60_changed_rates_partial"
   ],
   "note": "REFUTED: changed pressures, new boundaries and changed kinds are not seen by later steps. C60_changed_rates_partial: on the vectorised path new values of rates and gradients (and new rate or gradient boundaries), the pressures unchanged, hold in the next step: recorded, and in the equation of each cell."
  },
  {
   "property": "C61",
   "status": "partial",
   "theorems": [
    "C61_missing_pi_refuted",
    "C61_missing_pi_partial"
   ],
   "note": "REFUTED: the vectorised path runs on NaN; the symbolic path raises AttributeError. Proved: no cell ever gets a number for a pressure, and symbolic solves never return."
  },
  {
   "property": "C42",
   "status": "proved",
   "theorems": [
    "C42_paths_agree"
   ],
   "note": "At any point of a history of balanced steps (either path), not only the first: level, 1D or 2D, conditions pressure/rate on faces, wells in mode q or pwf (pwf not 0), well factors not negative, sympy scaling not 0; both assemblies having succeeded."
  },
  {
   "property": "C70",
   "status": "partial",
   "theorems": [
    "C70_exact_partial",
    "C70_double_refuted"
   ],
   "note": "REFUTED in double precision (SpecFloat with 53 bits): dt = 0.1, tstep = 2 gives four entries. Proved for all dt > 0 with exact real arithmetic."
  },
  {
   "property": "C71",
   "status": "partial",
   "theorems": [
    "C71_rows_partial",
    "C71_rows_refuted"
   ],
   "note": "REFUTED after a direct call of solve (nsteps not counted). Proved for all histories without direct solve, exact arithmetic."
  },
  {
   "property": "C83",
   "status": "proved",
   "theorems": [
    "C83_row_length"
   ],
   "note": ""
  },
  {
   "property": "C84",
   "status": "partial",
   "theorems": [
    "C84_columns_partial",
    "C84_columns_refuted"
   ],
   "note": "REFUTED if the recorded pressure lists have different lengths (ValueError). Proved if one pressure per step was recorded or Pwf is not selected; exact arithmetic; units, scaling and saving left out."
  },
  {
   "property": "C85",
   "status": "proved",
   "theorems": [
    "C85_columns_kept",
    "C85_rows_kept"
   ],
   "note": ""
  },
  {
   "property": "C86",
   "status": "proved",
   "theorems": [
    "C86_steady"
   ],
   "note": ""
  },
  {
   "property": "C87",
   "status": "partial",
   "theorems": [
    "C87_all_missing",
    "C87_rejected_refuted"
   ],
   "note": "REFUTED: the run is accepted; the theorem C87_all_missing says that then every computed pressure is missing (NaN)."
  },
  {
   "property": "C88",
   "status": "partial",
   "theorems": [
    "C88_direction_partial",
    "C88_direction_refuted"
   ],
   "note": "REFUTED for flow along y and z: get_alpha always reads kx. Proved for flow along x."
  },
  {
   "property": "C89",
   "status": "proved",
   "theorems": [
    "C89_one_direction_only"
   ],
   "note": ""
  },
  {
   "property": "C90",
   "status": "partial",
   "theorems": [
    "C90_failed_run_refuted",
    "C90_failed_run_partial"
   ],
   "note": "REFUTED: tstep and nsteps are set before the computation that raises. Proved: pressures and rates stay."
  },
  {
   "property": "C91",
   "status": "proved",
   "theorems": [
    "C91_run_again"
   ],
   "note": "Exact arithmetic."
  },
  {
   "property": "C92",
   "status": "proved",
   "theorems": [
    "C92_cell_equation"
   ],
   "note": "Every step of a history of balanced steps (one system, modes of the wells unchanged, exact solver); vectorised steps: level reservoir, 1D or 2D (C23, C48 say why); symbolic steps without threads: any."
  },
  {
   "property": "C93",
   "status": "proved",
   "theorems": [
    "C93_recorded_rates"
   ],
   "note": "As C92 without the restriction on the reservoir."
  },
  {
   "property": "C94",
   "status": "proved",
   "theorems": [
    "C94_never_fails",
    "C94_succeeds"
   ],
   "note": "Vectorised path; print_arrays off; boundaries set once before the first step (a second set_boundaries can lead to a KeyError); the initial pressure is arbitrary, also missing."
  },
  {
   "property": "C95",
   "status": "partial",
   "theorems": [
    "C95_set_well",
    "C95_set_boundaries",
    "C95_set_all_boundaries",
    "C95_column_refuted"
   ],
   "note": "REFUTED for grids without flow along x, or with flow along z but not y: set_well raises ValueError and leaves a half-made well behind. C95_set_well proves set_well succeeds exactly on the other grids."
  },
  {
   "property": "C96",
   "status": "proved",
   "theorems": [
    "C96_changed_controls",
    "C96_new_rate"
   ],
   "note": "Vectorised path; a change keeps the prescribed pressures and the wells already under pressure control (the other changes are refuted in C55, C60)."
  },
  {
   "property": "C97",
   "status": "partial",
   "theorems": [
    "C97_past_rewritten_refuted",
    "C97_past_kept_partial"
   ],
   "note": "REFUTED: set_boundaries between steps overwrites rates and pressures recorded for the last completed step. C97_past_kept_partial: set_well changes no row, set_boundaries nothing but the named cells of the current row."
  },
  {
   "property": "C98",
   "status": "proved",
   "theorems": [
    "C98_units",
    "C98_plain"
   ],
   "note": "Unit tables that name time, rate and pressure (both of base.py do)."
  },
  {
   "property": "C99",
   "status": "partial",
   "theorems": [
    "C99_scaled_partial",
    "C99_start_refuted",
    "C99_boundary_refuted",
    "C99_raises_refuted"
   ],
   "note": "REFUTED: directly after compile all scaled times and pressures are NaN; a pressure set at a boundary after a step makes all scaled pressures NaN; without initial pressure or on a grid of one cell get_df(scale=True) raises. C99_scaled_partial: the property for every state where each range has two values and no cell has a value at some steps only; the range is taken from the cells that are not constantly zero."
  },
  {
   "property": "C100",
   "status": "proved",
   "theorems": [
    "C100_time",
    "C100_centers",
    "C100_domain"
   ],
   "note": ""
  },
  {
   "property": "C101",
   "status": "proved",
   "theorems": [
    "C101_repeatable"
   ],
   "note": ""
  },
  {
   "property": "C102",
   "status": "partial",
   "theorems": [
    "C102_range_partial",
    "C102_wells_refuted",
    "C102_rates_refuted"
   ],
   "note": "REFUTED: bottom-hole pressures above the cell pressures and the zero rates of cells without flow are scaled to values outside the range. C102_range_partial: cell pressures."
  },
  {
   "property": "C103",
   "status": "partial",
   "theorems": [
    "C103_drop_zero_refuted",
    "C103_drop_zero_partial"
   ],
   "note": "REFUTED: columns are dropped after scaling; a cell in the middle of the range is left out. C103_drop_zero_partial: without scaling."
  },
  {
   "property": "C104",
   "status": "proved",
   "theorems": [
    "C104_comparison",
    "C104_comparison_steady",
    "C104_comparison_step"
   ],
   "note": "For wells that keep their modes in each step (balanced_step), exact solvers, boundary conditions on single faces."
  },
  {
   "property": "C105",
   "status": "proved",
   "theorems": [
    "C105_initial_pressure",
    "C105_shift",
    "C105_steady"
   ],
   "note": ""
  },
  {
   "property": "C106",
   "status": "proved",
   "theorems": [
    "C106_more_production",
    "C106_more_injection"
   ],
   "note": ""
  },
  {
   "property": "C107",
   "status": "proved",
   "theorems": [
    "C107_upper_bound",
    "C107_lower_bound",
    "C107_steady_bounds"
   ],
   "note": ""
  },
  {
   "property": "C108",
   "status": "proved",
   "theorems": [
    "C108_changes_shrink",
    "C108_steps_repeat"
   ],
   "note": "As C104; all steps by one path."
  },
  {
   "property": "C109",
   "status": "proved",
   "theorems": [
    "C109_drawdown",
    "C109_buildup"
   ],
   "note": ""
  },
  {
   "property": "C110",
   "status": "proved",
   "theorems": [
    "C110_superposition",
    "C110_superposition_steady",
    "C110_interference",
    "C110_proportional"
   ],
   "note": "As C104."
  },
  {
   "property": "C111",
   "status": "proved",
   "theorems": [
    "C111_run_in_pieces",
    "C111_run_is_solves",
    "C111_histories"
   ],
   "note": "With it the properties stated for calls of solve (C104-C110 among them) carry over to calls of run."
  },
  {
   "property": "C112",
   "status": "partial",
   "theorems": [
    "C112_cache_seen_refuted",
    "C112_boundaries_first",
    "C112_undisturbed",
    "C112_changed_controls"
   ],
   "note": "REFUTED: after a changed boundary pressure a step records the rate of the old pressure, and a discarded step (update=False) at time 0 fixes the boundary pressure of all later steps. True of all histories in which set_boundaries is not called between the first step and a new compile, of all in which the conditions seen by the cache stay, and so of the changes of controls of C96."
  },
  {
   "property": "C113",
   "status": "proved",
   "theorems": [
    "C113_same_as_run",
    "C113_clean",
    "C113_scaled"
   ],
   "note": "For models the analytical solution applies to and recorded pressures that are all given and not all equal. As in C75 the pressures have one row per step and cell, so n times as many rows as X."
  },
  {
   "property": "C114",
   "status": "partial",
   "theorems": [
    "C114_kept_refuted",
    "C114_rate_ignored",
    "C114_kept_equations_partial",
    "C114_pressures"
   ],
   "note": "REFUTED: a rate set for a cell whose equation is kept is never seen by it (C114_rate_ignored: for every model and cell), and a new well controlled by pressure replaces one of the connections. True of all histories in which boundary conditions and wells of the cells with kept equations stay, wells controlled by pressure being free to change (C114_pressures: stated by the calls alone). Calls of run are not in the partial theorem; by C111 a run is its steps."
  },
  {
   "property": "C115",
   "status": "proved",
   "theorems": [
    "C115_reciprocity",
    "C115_wells",
    "C115_equal"
   ],
   "note": "Steps with the exact solution of the assembled system, all three simulations by the same path (vectorised or symbolic) throughout; a compressible reservoir starts at one pressure."
  },
  {
   "property": "C116",
   "status": "proved",
   "theorems": [
    "C116_order"
   ],
   "note": "Steps with the exact solution of the assembled system; a compressible reservoir starts at a given pressure, an incompressible one has a pressure held somewhere. Wells of rates or pressures, boundaries of pressures, rates or gradients."
  },
  {
   "property": "C117",
   "status": "partial",
   "theorems": [
    "C117_shared_refuted",
    "C117_apart",
    "C117_one_well"
   ],
   "note": "REFUTED: set_well(well=...) stores the well object's own dictionary and set_boundaries the caller's: a rate set in one model appears in another that was given the same object, a rate told to the object afterwards and an entry assigned to the dictionary afterwards appear in the model. True (C117_apart) of all scripts that pass every well object once and leave what they have passed alone. C117_one_well: cells given one object have one and the same well, also productivity and equivalent radius, ever after."
  },
  {
   "property": "C118",
   "status": "proved",
   "theorems": [
    "C118_forgets",
    "C118_eventually",
    "C118_settles",
    "C118_towards"
   ],
   "note": "Compressible reservoir with a pressure held somewhere; steps with the exact solution of the assembled system, by one path throughout. The factor is shown to exist, its size is not estimated."
  },
  {
   "property": "C119",
   "status": "partial",
   "theorems": [
    "C119_cells",
    "C119_boundaries",
    "C119_neighbors",
    "C119_cell_boundaries",
    "C119_shaped",
    "C119_prop",
    "C119_prop_shaped_refuted",
    "C119_icoords_default_refuted",
    "C119_icoords_partial",
    "C119_icoords_raises_refuted"
   ],
   "note": "REFUTED for two methods: get_prop(fshape=True) does not ignore the format (documented): a set of rows is a TypeError, an unknown format a ValueError, and get_cells_icoords() without a format fails on every grid (the default None is no format) and with any format on one- and two-dimensional grids without unify. True of get_cells_i, get_cells_id, get_cells_coords, get_boundaries, get_cell_neighbors, get_cell_boundaries, of flat get_prop, and of get_cells_icoords on unified or three-dimensional grids."
  },
  {
   "property": "C120",
   "status": "partial",
   "theorems": [
    "C120_remove_scalars",
    "C120_remove_points",
    "C120_extract_scalars",
    "C120_extract_points",
    "C120_wrong_size",
    "C120_dict_partial",
    "C120_dict_refuted"
   ],
   "note": "REFUTED for dictionaries: the arguments remove and points are lost, and the caller's dictionary is changed in place. True of arrays: numbers and points are told apart correctly for every grid and both layouts (the shape with boundaries never ends in 3)."
  },
  {
   "property": "C121",
   "status": "partial",
   "theorems": [
    "C121_fluid_names",
    "C121_well_names",
    "C121_fluid_methods",
    "C121_well_methods",
    "C121_fluid_values_partial",
    "C121_well_values_partial",
    "C121_fluid_again",
    "C121_well_again",
    "C121_fluid_when",
    "C121_well_when",
    "C121_follow_refuted",
    "C121_zero_skin_refuted",
    "C121_no_compressibility",
    "C121_model_raises",
    "C121_model_refuted"
   ],
   "note": "REFUTED: full names of numbers are copies of the value at the call, viscosity stays behind after set_mu or set_viscosity; a well given the skin 0 gets no full names; SinglePhase never gets the compressibility names its parent documents; allow_synonyms of a BlackOil model always raises. True: right after the call all names agree, methods agree for ever, a repeated call makes all names agree again. Grids (their synonyms refer to arrays) are not modelled here."
  },
  {
   "property": "C122",
   "status": "proved",
   "theorems": [
    "C122_turned",
    "C122_symmetric"
   ],
   "note": "Steps with the exact solution of the assembled system, by the same paths in both simulations. A compressible reservoir starting at one pressure, or an incompressible reservoir with a pressure held somewhere. By the symbolic path on any grid, by the vectorised path on grids with at most two flow directions (with three it couples cells across layers, C23)."
  },
  {
   "property": "C123",
   "status": "proved",
   "theorems": [
    "C123_quotient"
   ],
   "note": "Steps with the exact solution of the assembled system, by the same paths in both simulations; the same unit system; heights all equal or no well controlled by a rate (C42). Restrictions on three flow directions as in C122."
  },
  {
   "property": "C124",
   "status": "partial",
   "theorems": [
    "C124_threads_partial",
    "C124_vectorised",
    "C124_threads_refuted"
   ],
   "note": "REFUTED: errors inside the threads of the symbolic assembly are never looked at, so a step that raises TypeError without threads succeeds with threads and records what the solver makes of a system with missing rows. What holds: whenever the sequence of calls succeeds without threads (two cells or more) it ends in the same state with threads; the vectorised path ignores the argument."
  },
  {
   "property": "C125",
   "status": "partial",
   "theorems": [
    "C125_face_partial",
    "C125_corner_pressure",
    "C125_corner_rate_refuted",
    "C125_corner_pressure_refuted"
   ],
   "note": "REFUTED: set_boundaries accepts conditions on edges and corners of the grid; a rate there is recorded but enters no equation, a pressure there makes every later step raise. What holds: a boundary cell is coupled to interior cells exactly if it lies on one face; the effect of conditions on such cells is in C92-C94."
  },
  {
   "property": "C126",
   "status": "proved",
   "theorems": [
    "C126_mobility"
   ],
   "note": "Steps with the exact solution of the assembled system, by the same paths in both simulations; the same unit system; heights all equal or no well controlled by a rate (C42). Restrictions on three flow directions as in C122."
  },
  {
   "property": "C127",
   "status": "partial",
   "theorems": [
    "C127_answers",
    "C127_attributes_partial",
    "C127_attribute_refuted"
   ],
   "note": "REFUTED for the attributes: a cached repetition of get_n answers 3 and leaves the attribute n at 5. What holds: every answer of every session is the one computed afresh (no hypothesis); the attributes fdir and D are right, and shape, n, n_max and fshape hold the answer to some question about the same grid."
  },
  {
   "property": "C128",
   "status": "partial",
   "theorems": [
    "C128_arrays",
    "C128_apart",
    "C128_held",
    "C128_permeability",
    "C128_names_when",
    "C128_names_partial",
    "C128_names_refuted"
   ],
   "note": "REFUTED for the full names: set_props(phi=..) for all cells makes a new array that the name porosity does not follow; and allow_synonyms raises AttributeError unless all three permeabilities and the porosity are set, also on a line. What holds: the arrays of different properties are apart, k and permeability follow, held arrays are safe from calls for all cells, the names follow changes of single cells; the simpler model of properties used elsewhere (two copies and a flag) agrees with the arrays as objects."
  },
  {
   "property": "C129",
   "status": "partial",
   "theorems": [
    "C129_values",
    "C129_names",
    "C129_limits",
    "C129_marks_partial",
    "C129_marks_refuted",
    "C129_camera",
    "C129_labels_partial",
    "C129_icoords_partial",
    "C129_labels_refuted",
    "C129_wells",
    "C129_wells_drawn",
    "C129_frames_partial",
    "C129_frames_refuted",
    "C129_window",
    "C129_window_refuted"
   ],
   "note": "REFUTED in four places: after a direct call of solve the animation lacks the last step; where all values are equal the colour bar loses its marks min and max; label icoords raises AssertionError for the boundary cells of a grid with one or two flow directions and unify=False; the height of resolution 8k is 3420 instead of 4320. What holds: every frame holds the values of its step at the drawn cells, the frames are all steps if only run was used, limits and marks are minimum, maximum and mean, labels stand at the centres of their cells (icoords for all cells with unify or three flow directions, else for interior cells), wells are drawn at their cells with their radius, the flow lies in the camera's plane."
  }
 ]
}