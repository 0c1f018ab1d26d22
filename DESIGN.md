# Design

Subject: the Python library in `/repo` (reservoirflow). This file says, for every
property of `properties.jsonl`, what is modelled and how it is proved, and what is
trusted. It was written before the proofs and is updated when a proof changes the plan;
findings (properties that are false of the code) are listed in the last section.

## 1. How the code is modelled

All models are Gallina functions in `rocq/theories/*Model*.v`, one per Python function, branch
by branch, each with a comment giving the file and lines. Proofs are kept out of those files.

* **Numbers.** Index arithmetic uses `Z`/`nat`. Cell data (spacing, permeability, pressure,
  rates) is generic over a class `Num F` of operations (no laws). The theorems are about the
  instance `R` (exact reals) unless the class is left arbitrary; the instance `Q` makes the model executable
  for witnesses. `Tests.v` runs the model with fixed point numbers on the inputs of the repository's own
  tests and compares with the numbers written there to five places (examples 7.1, 7.3, 7.4, 7.5, 7.7, 7.9
  and 7.11: pressures, rates and well pressures of every step, transmissibilities, accumulation
  coefficients, well factors; cell numbers, lengths, areas and volumes).
  Floating-point rounding is *not* modelled, except for the one property that is about it
  (C70), which uses the standard library's `SpecFloat` binary64 operations.
* **NaN.** Unset pressures are `None` in arrays of `option F`. Division by zero in numeric
  code is excluded by explicit hypotheses (positivity), never by totalisation.
* **Arrays.** A numpy array is a flat list plus a shape; slicing, fancy indexing, `meshgrid`,
  `transpose`, `repeat`, `tile`, `cumsum`, `diag` are modelled as list functions.
* **Objects and exceptions.** An object is a record; a method is a function from the record
  to a pair (record, result) where the result is a value or an exception. The record after a
  raised exception is kept, so partial mutation is visible.
* **Dictionaries** are association lists in insertion order.
* **lru_cache** is class-level in the code. It is modelled separately (LRU list with a
  capacity, keys contain the object): C18, C19, C76. C19 (transparency as long as the state
  is unchanged) is what justifies ignoring caches in the other models; the cache of the
  boundary terms, whose state does change, is modelled with the solution: C112.
* **The linear solver** (scipy) is an argument of the modelled `solve`; theorems quantify over
  it, and assume `A p = d` for its result only where said ("solved exactly").
* **sympy**: an expression is a linear form (coefficients per symbol, constant).
  `as_coefficients_dict().values()` lists the constant first if it is non-zero, then the
  non-zero coefficients. `Eq.simplify` is taken to return an equivalent equation with the constant on the right,
  scaled by an arbitrary non-zero factor (argument of the model).
* **pyvista** `cell_id`/`cell_coords` are taken as Fortran-order ravel/unravel.
* **Threads**: the tasks' writes in an arbitrary order.

### Which code is modelled

| code | model file | left out |
|------|-----------|----------|
| `grids/regular_cartesian.py` 31-1280 (sizes, directions, shapes, ids, coordinates, neighbours, boundaries) | `GridModel.v` | printing, warnings, `get_ones`/`get_zeros` beyond their length (`AliasModel.v` has the sharing) |
| `grids/regular_cartesian.py` 1281-2250 (spacings, areas, volumes, centres, corners) | `GeoModel.v` | `get_pyvista_grid` |
| `grids/grid.py`, `grids/regular_cartesian.py` 2260-3015 (properties, isotropy tests, geometry factors) | `PropModel.v` | - (`allow_synonyms` of grids is in `RefModel.v`) |
| `allow_synonyms` of `fluids/single_phase.py`, `wells/single_cell.py`, `models/black_oil.py`; the setters of `wells/single_cell.py` | `SynonymModel.v` | arguments of another kind than the setter stores (text as rate, number as constraint); comp_type |
| `utils/helpers.py` `_lru_cache` with the memoised queries | `CacheModel.v`, `AliasModel.v` | - |
| `grids/regular_cartesian.py` 169-378 once more, as computations that set and read attributes through shared caches | `QueryModel.v` | the messages for verbose; the attributes nx_b, ny_b, nz_b |
| `grids/regular_cartesian.py` 2260-2426 once more, with array objects, and 3016-3047 `allow_synonyms` | `RefModel.v` | the synonyms of methods, flow shape and dimension; item assignment by the user |
| `utils/helpers.py` 42-110, 128-205, 214 (`isin`, `intersection`, `ispoints`, `reformat`, `remove_diag`) | `HelperModel.v`, `FormatModel.v` (also the `fmt`, `fshape`, `points` arguments of the grid) | `issametype` (not used; raises TypeError), string helpers |
| `base.py` (UNITS, FACTORS, set_units), `fluids/fluid.py`, `fluids/single_phase.py` | `UnitsModel.v` | `report`, `__str__`; multi-phase fluids only raise |
| `scalers/minmax.py`, `scalers/dummy.py`, `black_oil.py:865-934` | `ScalerModel.v` | - |
| `solutions/compiler.py`, `models/model.py` (compile, set_solution, get_solutions) | `CompileModel.v` | neural solutions and backends (only names) |
| `models/black_oil.py` 31-646 and `wells/single_cell.py` | `BlackOilModel.v`, `AnalyticModel.v` (`get_alpha`), `WorldModel.v` (objects passed by reference) | `copy`, the example constructors, the caches of `get_cells_trans*` |
| `models/black_oil.py` 652-863, 936-1070 (`get_df`) | `FrameModel.v` (plain), `ScaleModel.v` (with `scale`, `units`, `get_time`, `get_centers`, `get_domain`, `update_scalers`) | saving to a file; dates are the number of the step |
| `solutions/solution.py`, `solutions/numerical/fdm.py` | `FdmModel.v`, `MemoModel.v` | printing, progress bar, timing; the cache of `__calc_n_term` (its values never change); the cache of `__calc_b_term` is in `MemoModel.v`, which runs the same computations with the cache, and C112 says when the two agree |
| `solutions/numerical/solvers.py` | argument of the model (see "linear solver") | the choice by name is modelled, the solvers are not |
| `utils/pyvista.py` 153-199, 236-266, 364-418, 504-578, 799-811, 900-1239 (what is handed to the drawing library: values, limits, marks, camera plane, wells, labels, frames, window size) | `PictureModel.v` | the drawing; the formatting of labels (`fmt="tuple"`, in `FormatModel.v`) |
| `solutions/analytical/d1p1.py` | `AnalyticModel.v` (`run`, `solve`), `CalcModel.v` (`calc_solution`) | printing |

Not modelled: drawing (calls of pyvista and matplotlib; colours, texts, camera angles), `plot*`, `report`, `utils/profme.py`,
the classes that only raise (multi-phase fluids, multi-cell and directional wells, neural
solutions, D1P2 ... D3P3), CSV output, sparse storage formats (a sparse matrix is the matrix it
denotes), floating-point rounding (except C70), warnings, timing.

## 2. Trusted base

* Coq 8.16.1's kernel (checked again with `coqchk`).
* Axioms: each property theorem is followed by `Print Assumptions`; the theorems over `R` rest on
  the standard library's axioms of the reals (`ClassicalDedekindReals.sig_forall_dec`,
  `ClassicalDedekindReals.sig_not_dec`, `FunctionalExtensionality.functional_extensionality_dep`,
  for some `Classical_Prop.classic`); the index theorems are closed under the global context.
  No axiom is declared in this development.
* That the model says what the Python code says (comments with line references; `Tests.v`
  compares with values of the repository's tests, among them 27 steps with a well that changes mode), and the readings of numpy, scipy, sympy, pyvista, pandas
  and functools listed above.

### Print Assumptions, theorem by theorem

Axioms of the standard library that occur: D = `ClassicalDedekindReals.sig_forall_dec`, N =
`ClassicalDedekindReals.sig_not_dec`, E = `FunctionalExtensionality.functional_extensionality_dep`,
C = `Classical_Prop.classic`. Nothing else is listed for any theorem.

* **none (closed under the global context)**:
  C01_direction_and_shape, C01_direction_from_boundary_shape, C02_id_coords_bijection,
  C02_id_coords_bijection_inner, C03_interior_boundary_partition, C04_single_cell_refuted,
  C05_both_is_interior, C05_remove_boundaries, C06_extract_boundaries,
  C06_extract_boundaries_sorted, C07_boundary_cell_rejected, C07_neighbors_interior,
  C07_neighbors_with_boundary, C08_neighbors_coords_agree, C09_neighbors_symmetric, C100_domain,
  C101_repeatable, C102_rates_refuted, C103_drop_zero_refuted, C10_boundaries_complete_neighbors,
  C10_boundaries_coords_agree, C10_boundary_cell_rejected, C111_histories, C111_run_in_pieces,
  C111_run_is_solves, C112_cache_seen_refuted, C114_kept_refuted, C114_rate_ignored, C117_apart,
  C117_one_well, C117_shared_refuted, C119_boundaries, C119_cell_boundaries, C119_cells,
  C119_icoords_default_refuted, C119_icoords_partial, C119_icoords_raises_refuted, C119_neighbors,
  C119_prop_shaped_refuted, C119_shaped, C11_boundary_cell_one_neighbor, C120_dict_partial,
  C120_dict_refuted, C120_extract_points, C120_extract_scalars, C120_remove_points,
  C120_remove_scalars, C120_wrong_size, C121_fluid_again, C121_fluid_methods, C121_fluid_names,
  C121_fluid_values_partial, C121_fluid_when, C121_model_raises, C121_model_refuted,
  C121_no_compressibility, C121_well_again, C121_well_methods, C121_well_names,
  C121_well_values_partial, C121_well_when, C124_threads_partial, C124_threads_refuted,
  C124_vectorised, C125_corner_pressure, C125_corner_pressure_refuted, C125_corner_rate_refuted,
  C127_answers, C127_attribute_refuted, C127_attributes_partial, C128_apart, C128_arrays,
  C128_held, C128_names_partial, C128_names_when, C128_permeability, C129_camera,
  C129_frames_partial, C129_names, C129_values, C129_window, C129_window_refuted,
  C18_direct_current, C18_frozen, C18_set_up_first_partial, C18_stale_refuted, C19_accessors,
  C19_capacity, C19_recent, C19_transparent, C31_failing_set_well_refuted,
  C33_well_object_refuted, C34_press_refuted, C35_all_boundaries_refuted,
  C36_compile_order_refuted, C37_gradient_refuted, C45_cumulative_refuted, C48_vectorised_refuted,
  C49_append_only, C50_rows_partial, C51_stored_partial, C53_solver_partial, C54_limits,
  C57_zero_pressure_refuted, C58_dry_run, C59_schedule, C60_changed_boundary_refuted,
  C61_missing_pi_refuted, C62_failing_compile, C63_names, C64_short_names_partial,
  C64_short_names_refuted, C65_switching, C69_set_scalers_partial, C70_double_refuted,
  C71_rows_refuted, C72_pressures_partial, C72_pressures_refuted, C76_independent_partial,
  C76_shared, C77_independent_refuted, C77_no_wells_partial, C78_intersection, C79_remove_diag,
  C80_attributes_current, C83_row_length, C84_columns_refuted, C88_direction_refuted,
  C95_column_refuted, C97_past_rewritten_refuted, C98_plain, C98_units, C99_boundary_refuted,
  C99_raises_refuted, C99_start_refuted.
* **D**:
  C69_all_refuted.
* **D, E**:
  C04_factor_matrix_refuted, C100_centers, C100_time, C103_drop_zero_partial, C119_prop,
  C121_follow_refuted, C121_zero_skin_refuted, C125_face_partial, C128_names_refuted,
  C129_icoords_partial, C129_labels_partial, C129_labels_refuted, C129_limits, C129_marks_partial,
  C129_marks_refuted, C129_wells, C12_arrays_follow_ids, C12_lookup_by_coords,
  C12_lookup_by_coords_refuted, C12_zero_coordinate_rejected, C13_spacing, C14_areas_volumes,
  C15_centers, C16_corners, C17_rejected, C17_set_one_cell_partial, C17_set_one_cell_refuted,
  C20_symmetric_positive, C21_boundary_mean_refuted, C21_series_coupling, C22_matrix_agrees,
  C23_matrix_agrees_partial, C23_matrix_refuted, C23_spurious_couplings, C24_matrix_symmetric,
  C25_comp_type, C25_rejected_refuted, C26_model_comp, C27_units_follow, C28_gravity_partial,
  C28_gravity_refuted, C30_interior_cells, C34_symbolic, C34_variants_partial,
  C35_all_boundaries_partial, C36_compile_order_partial, C38_diffusion_matrix, C66_invertible,
  C67_range, C68_fitted, C70_exact_partial, C76_refuted, C80_set_prop_refuted, C81_tables,
  C82_constructor, C85_columns_kept, C85_rows_kept, C88_direction_partial.
* **D, N, C, E**:
  C102_range_partial, C102_wells_refuted, C104_comparison, C104_comparison_steady,
  C104_comparison_step, C105_initial_pressure, C105_shift, C105_steady, C106_more_injection,
  C106_more_production, C107_lower_bound, C107_steady_bounds, C107_upper_bound,
  C108_changes_shrink, C108_steps_repeat, C109_buildup, C109_drawdown, C110_interference,
  C110_proportional, C110_superposition, C110_superposition_steady, C112_boundaries_first,
  C112_changed_controls, C112_undisturbed, C113_clean, C113_same_as_run, C113_scaled,
  C114_kept_equations_partial, C114_pressures, C115_equal, C115_reciprocity, C115_wells,
  C116_order, C118_eventually, C118_forgets, C118_settles, C118_towards, C122_symmetric,
  C122_turned, C123_quotient, C126_mobility, C129_frames_refuted, C129_wells_drawn,
  C29_control_mode, C30_wells_interior, C31_failing_set_well_partial, C31_other_axes,
  C32_productivity, C32_r_eq, C33_well_object_partial, C37_gradient_partial,
  C39_compressible_regular, C39_stored_regular, C40_closed_singular, C41_all_steps_regular,
  C41_first_step_regular, C42_paths_agree, C43_incompressible_balance, C44_compressible_balance,
  C44_reported_error, C45_cumulative_partial, C46_uniform_pressure, C47_maximum_principle,
  C48_hydrostatic_partial, C50_nsteps_refuted, C51_stored_refuted, C52_terminates,
  C53_solver_refuted, C55_return_refuted, C56_pressure_well_partial, C56_zero_pwf_refuted,
  C57_pressures_partial, C60_changed_rates_partial, C61_missing_pi_partial, C71_rows_partial,
  C73_boundaries, C74_heat, C75_rows_partial, C75_rows_refuted, C84_columns_partial, C86_steady,
  C87_all_missing, C87_rejected_refuted, C89_one_direction_only, C90_failed_run_partial,
  C90_failed_run_refuted, C91_run_again, C92_cell_equation, C93_recorded_rates, C94_never_fails,
  C94_succeeds, C95_set_all_boundaries, C95_set_boundaries, C95_set_well, C96_changed_controls,
  C96_new_rate, C97_past_kept_partial, C99_scaled_partial.

## 3. Properties

| id | modelled | proof |
|----|----------|-------|
| C01 | get_D, get_fdir (argmax/argmin), get_shape, get_n, get_n_max | case split over the eight direction patterns, lia |
| C02 | pyvista ravel/unravel, get_cell_id, get_cell_coords | div/mod identities |
| C03 | get_order, get_fshape, slicing, concatenation, sort | tabulation lemma for slices: every slice of a tabulated array is a tabulated array; then membership and NoDup |
| C04 | same functions at 1x1x1 | refutation by computation (finding) |
| C05, C06 | remove_boundaries, extract_boundaries on arbitrary data | same tabulation lemma, polymorphic in the data |
| C07-C11 | get_cell_neighbors by id and by coords, get_cell_boundaries | membership in the interior/boundary lists characterised by coordinates (C03), then linear arithmetic |
| C12 | get_cell_icoords and the accessors | unify=True: proof; unify=False: refuted for zero flow coordinates, proved for the others |
| C13-C16 | meshgrid/transpose/reshape, products, cumsum, repeat/tile | index identities on flat lists; sums by induction |
| C17 | set_prop, set_props for one cell | refuted in general; proved for 1D, unify=False, non-zero coordinate |
| C18 | grid object with caches | refuted by a call sequence; what is fresh is proved |
| C19 | LRU cache over an arbitrary function | invariant: every cached entry is correct and size <= capacity |
| C20, C21 | get_cell_G, both formulas | field identities; equal face areas from C13 |
| C22 | diagonals, np.diag, zeroed entries | index arithmetic: entry (a,b) is non-zero only for stride pairs not crossing a row end |
| C23 | same in 3D | refuted (finding): spurious couplings |
| C24 | same | symmetric by construction |
| C25 | set_comp | positive part proved; state after rejection refuted |
| C26 | __calc_comp, __calc_RHS | case analysis, positivity |
| C27, C28 | set_units, set_rho | induction over calls; C28 refuted |
| C29-C31 | set_well with partial failure (`BlackOilModel.v`) | `WellThm.v`: induction over call sequences, exceptions caught; C31 refuted, exact condition proved |
| C32 | `__calc_well_r_eq`, `__calc_well_G` over R | sqrt/ln algebra |
| C33 | SingleCell, set_well(well) and one step | refuted; agreeing attributes proved |
| C34-C36 | set_boundary(ies), set_all_boundaries, both assemblies | `BoundaryThm.v`: simulation between two histories; refuted with witnesses outside the canonical spelling/order |
| C37 | gradient boundaries in both assemblies | refuted (symbolic); the vectorised side proved in `LocalThm.v` |
| C38 | `get_cells_trans_diag`, `__init_A` | `AssemblyThm.v`: row sums, signs, symmetry of the matrix before updates |
| C39, C41 | matrix with accumulation / with at least one pressure condition or well | strict diagonal dominance / energy argument with grid connectivity (`NbrFacts.v`); C41 over every step of a history |
| C40 | closed incompressible models | `ClosedThm.v`: constant vectors in the kernel |
| C42 | both assemblies | `PathThm.v`: both systems are put in one canonical form (`CanonFacts.v`, `SymbFacts.v`, `VectFacts.v`), rows equal up to the sympy factor; invariant over histories |
| C43, C44 | solve with an exact solver, both paths | `BalanceThm.v`: summation by symmetry over the canonical form; invariant over histories mixing paths |
| C45 | `check_MB` over a run | refuted: equals 1/t; that value proved for all t |
| C46, C47 | solve, both paths | uniqueness / maximum argument on the canonical form, induction on steps |
| C48 | gravity terms | symbolic proved (all steps), vectorised refuted |
| C49-C53 | solve/run as a state machine; a re-solved step is recursion with fuel, C52 bounds the recursion | `SolveThm.v`: invariants over histories; C50, C51, C53 refuted with witnesses |
| C54, C55 | `__update_wells` | invariant; C55 refuted |
| C56, C57 | `__calc_w_term`, unpacking of `__calc_b_term` | refuted at 0; for other bottom-hole pressures corollary of C92 and C93, for pressures other than the fluid weight corollary of C94 and C95 |
| C58 | solve(update=False) | `StepThm.v`: idempotence of assembly on a state left by an assembly |
| C59 | equation and row tasks in any order | permutation invariance of writes to distinct rows; a task is atomic |
| C60, C61 | mid-run changes, missing pi | refuted; C60 proved for rates and gradients on the vectorised path, corollary of C96; C61: NaN in all rows is an invariant of all calls, and the symbolic assembly raises |
| C62-C65 | Compiler, compile, set_solution | case analysis; injectivity of the name string |
| C66-C69 | scalers, set_scalers | field; induction on data |
| C70 | np.arange | exact: length = ceil; refuted in binary64 by computation with `SpecFloat` |
| C71, C83-C85 | get_df, melt, drop | `FrameThm.v`: length invariant over histories, then div/mod identities of repeat/tile/flatten |
| C72 | w_pressures | length invariant over histories; refuted for repeated set_well |
| C73 | D1P1 over R | sin(n pi) = 0; clipping and rescaling |
| C74, C86 | the partial sums | derivatives by induction on the number of terms; bound of the tail by exp(-pi^2 t) |
| C75, C87-C91 | `D1P1.run` with its broadcasting and rescaling | the result of run in closed form, then lists; C75, C87, C88, C90 refuted (C90: pressures and rates stay) |
| C76 | heap of cached arrays | refuted; exact condition proved |
| C77 | two solutions of one model | refuted; proved for vectorised solves without wells |
| C78, C79 | helpers | list reasoning |
| C80 | attributes and property dictionary | proved for set_props, refuted for set_prop |
| C81 | unit tables | decided by computation over the finite tables |
| C82 | constructor | from the code of `__init__`, positivity |
| C92 | the equation of every cell in every step, in terms of the recorded rows | the system of a step (`StepBal.v`) rewritten as sums over neighbours and faces, `LocalThm.v` |
| C93 | recorded rates of wells and boundaries | same |
| C94 | every solve and run of the vectorised path returns | an invariant of all proper histories (`TotalHist.v`) under which every step is total (`TotalFacts.v`, `TotalStep.v`) |
| C95 | setters accept every valid input | totality of the setters under the same invariant, `TotalSet.v`; refuted for columns |
| C96 | controls changed between steps | the invariant of C43 kept by set_well and set_boundaries between steps, `ChangeFacts.v`, `ChangeThm.v` |
| C97 | setters and recorded rows | refuted for set_boundaries; frame lemmas for what stays |
| C98-C103 | `update_scalers`, scaled and labelled `get_df`, `get_time`, `get_centers`, `get_domain` | `ScaleState.v`: the reading calls depend on the scalers only through their settings (C101); `ScaleFull.v`, `ScaleRange.v`: the fit of a scaler is the range of the recorded values, then the frame is compared column by column with the plain one of C71, C84; C99, C102, C103 refuted with witnesses |
| C104-C107 | two simulations compared; bounds on one | `CompareFacts.v`: a discrete comparison principle for the equations of a step (fluxes with non-negative couplings, a storage term or a held pressure), applied to the rows of `solve` through `step_rows` (C43, C92), step after step; C105 and C106 are instances, C107 compares with a constant (in a flat reservoir) |
| C108, C109 | one simulation, step after step | `EvolveFacts.v`: a step compared with the step before it (the controls being the same) by the comparison principle of C104; C109 starts the induction with C107 |
| C110 | four simulations with mixed controls | `SuperFacts.v`: the difference of the fourth and the mix of the other three satisfies the step equation with no source but terms that drive it back, so the comparison principle, used from both sides, makes it 0 |
| C111 | `run` and `solve` on any state | `PieceFacts.v`: every computation of a step commutes with replacing the counter `nsteps` (no step reads it), so the run loop may be cut anywhere; a step with a balance check leaves an error, so the read of it at the end of `run` succeeds |
| C112 | the solution with the cache of `__calc_b_term` (`MemoModel.v`), all histories | refuted by two histories; simulation in `MemoFacts.v` with the invariant that every kept term is the one the present conditions give, for all histories that leave those conditions alone once stepped |
| C113 | `calc_solution` written separately from `run`, with the model's scalers as state | both are reduced to one closed form (`calc_gen`, `run_ok`); the scaled domain by C100 |
| C114 | `cells_terms` emptied before every call (`KeptSpec.v`), all histories | refuted by four histories; otherwise simulation in `KeptFacts.v`: every kept equation is the one written anew, up to the term of a pressure-controlled well, which is replaced at every use; `KeptPres.v` gives the condition in terms of calls |
| C115 | rates added at cells to one simulation (`RecipSpec.v`), three simulations side by side | proved: the matrix of a step (with the pressure-controlled wells and boundaries on its diagonal) is symmetric, the accumulation term is the same multiple of the volume in each; induction over the steps with both histories convolved (`RecipFacts.v`) |
| C116 | calls of each cell kept in order, boundary conditions permuted (`OrderSpec.v`) | proved: the record of a cell's well is a function of that cell's calls alone (`OrderFacts.v`), the boundary dictionary is looked up by key; then as C110 with weights 0 |
| C117 | several models with the well objects and dictionaries they share (`WorldModel.v`), the calls on one model with values instead (`WorldSpec.v`) | refuted by three scripts; for careful scripts proved by an invariant: every tied cell holds what its object holds, no object is tied twice (`WorldFacts.v`); the wells of cells tied to one object are equal in all scripts. Simplified: within one solve or run on a model two cells of which share an object, what the first assigns is seen by the second only at the end |
| C118 | histories of solves side by side as in C105, the incompressible fluid beside the compressible one (`SettleSpec.v`) | proved: the difference of two runs obeys the equations of a step with no rates; a maximum principle gives a factor below 1 at the cells where a pressure is held, and every cell connected to such a cell has one too, whatever the pressures; finitely many cells, so one factor for all (`SettleFacts.v`). The fluids compared share grid, viscosity, volume factor and weight |
| C119 | Python containers, numpy shapes, `reformat`, `ispoints` and the methods with `fmt` and `fshape` (`FormatModel.v`) over the flat lists of `GridModel.v` | proved for all grids and formats except: `get_prop(fshape=True)` with another format than array (refuted), `get_cells_icoords()` by default on all grids, and with any format on one- and two-dimensional grids without unify (refuted) |
| C120 | `remove_boundaries`, `extract_boundaries` on arrays with their shapes; dictionaries | proved for arrays (slicing commutes with reading rows of three as points; a shape with boundaries never ends in 3); for dictionaries `remove` is lost (refuted) |
| C121 | SynonymModel: `allow_synonyms` of SinglePhase, SingleCell and BlackOil, attribute reading and calls by name, the well setters | partial: names and methods agree; refuted: numbers do not follow, skin 0, models always raise. Grid synonyms: C128 |
| C122 | FdmModel, BlackOilModel, PropModel; TurnSpec says what a grid turned round is (sizes and properties of every cell, read through the API) | proved: both systems have one solution, and the turned solution of the one solves the other. The rates follow from the pressures by the same formulas. Restricted as C23 requires |
| C123 | FdmModel, BlackOilModel; `raised`, `same_storage` in TurnSpec | proved, by the argument of C122 with the cells left in place |
| C124 | FdmModel (the argument threading of solve, run and the symbolic assembly); ThreadSpec | refuted on a reservoir at pressure 0; call by call, the threaded computation returns what the sequential one returns whenever that succeeds (two cells or more); the vectorised path by unfolding |
| C125 | set_boundaries, update_boundaries, get_cell_trans | refuted by a rate and by a pressure at a corner of a square; a boundary cell is coupled exactly if it lies on one face (from C11); with a pressure elsewhere every step fails, for all solvers, paths and states |
| C126 | FdmModel, BlackOilModel; `eased`, `thicker`, `wells_scaled`, `same_storage_out` in TurnSpec | proved, by the argument of C122 with all transmissibilities multiplied before they are divided |
| C127 | QueryModel: the six queries with the attributes they set and read, one cache per method for all grids; QuerySpec: the same session without memory | answers proved for every session without hypotheses (invariant: every cached answer is right and the attributes its computation left are still there); refuted for the attributes, which hold the last computed, not the last given answer |
| C128 | RefModel: `set_prop`, `set_props`, `set_comp`, `allow_synonyms` of the grid on a heap of arrays; RefSpec: what can be read | arrays apart, held arrays, the dictionary k: proved by an invariant over all sequences of calls; the heap model is shown to agree with PropModel call by call; full names: partial, refuted for calls for all cells |
| C129 | PictureModel: the pure functions of `utils/pyvista.py`; PictureSpec: numbers among values, mean; a dictionary with numbers as keys for the marks | values, limits, camera proved; marks proved if two values differ, refuted otherwise; labels proved, icoords for all cells with unify or three flow directions and for interior cells otherwise (refuted for boundary cells); wells proved for all successful histories (RadiusFacts: every well has a radius); frames proved for histories without direct calls of solve (from C50), refuted with one |

Every entry of the manifest with status "partial" and a theorem `..._refuted` is a finding:
the property as stated is false of the code, the refutation gives the witness, and the
`..._partial` theorem (or the theorems without suffix) says for which inputs it does hold.

## 4. Findings

Each finding is a theorem about the model; the names are in the manifest.

Grid
1. (C04) On the 1x1x1 grid cell 0 is both interior and boundary; `get_cells_G` raises UnboundLocalError.
2. (C12) With unify=False, a cell with a zero flow coordinate is accepted by id and rejected by coordinates.
3. (C17) `set_prop` for one cell indexes a flat array with a coordinate tuple: it always raises with unify=True and in 2D/3D.
4. (C18) `get_cell_k`, `get_cell_G` and `is_isotropic` are memoised: after `set_props` they (and `get_cells_G`) answer from the old properties.
5. (C21) The factor towards a boundary cell of another permeability is an arithmetic mean if the interior is uniform.
6. (C23) In every 3D grid the vectorised transmissibility matrix couples cells across the end of a layer.
7. (C25) A rejected negative compressibility stays in `comp`.
8. (C76) `init_rates` is a view of the memoised `get_zeros` array: two models on one grid share it.
9. (C80) `set_prop` leaves the attributes kx, ky, kz, phi, z stale.

Fluid, compile, scalers
10. (C28) `set_units` does not recompute the gravity term.
11. (C64) The names 2D2P, 2D3P, 3D2P, 3D3P are unknown to the compiler.
12. (C69) `set_scalers` with "all" sets only the time scaler.

Wells and boundaries
13. (C31) `set_well` without radius, or on grids flowing along y, z, xz or yz, raises after having added the well.
14. (C33) A well given as an object has no control mode and does not produce in the first step.
15. (C34) The vectorised path takes only the exact word "pressure" as a pressure boundary; other accepted spellings close the boundary.
16. (C35) `set_all_boundaries` does not fill `bdict`: the assembled systems ignore it.
17. (C36) Rate boundaries set after `compile` are not seen by the first vectorised step.
18. (C37) The symbolic path uses the value of a gradient boundary itself as a rate.
19. (C56) A well with pwf = 0: the vectorised assembly puts the productivity in the right side and nothing in the matrix.
20. (C57) A boundary pressure of 0 makes the vectorised solve raise.
21. (C60) Boundaries changed between steps are not seen by later steps.
22. (C61) A compressible model without pi: the vectorised path runs on NaN, the symbolic one raises AttributeError.
23. (C72) `set_well` with pwf at a later step records a second pressure for the same step.

Time stepping
24. (C45) The cumulative material balance of t balanced steps is 1/t.
25. (C48) The vectorised path ignores gravity without rate wells.
26. (C50, C71) A direct call of `solve` is not counted in nsteps; the melted frame is then misaligned.
27. (C51, C53) A re-solved step stores a system for every attempt and solves with cgs whatever was asked for.
28. (C55) A well that returns to rate control keeps its last rate, and the vectorised matrix keeps its pressure term.
29. (C77) The cached symbolic terms are shared by the solutions of one model.
30. (C70) In double precision the time vector can have one entry too many (dt = 0.1, two steps).
31. (C84) `get_df` raises if the recorded well pressures differ in length.

Analytical solution
32. (C75) `D1P1.run` stores (nsteps+1)*n rows of pressures: the diffusivity has one entry per cell.
33. (C87) A model without a pressure at one end is accepted and gives only NaN.
34. (C88) The diffusivity always uses kx; along y or z it is wrong, or AttributeError without kx.
35. (C90) A run that raises leaves tstep and nsteps changed.
36. (C95) On a grid with flow along z only (or y only, or x and z) `set_well` raises ValueError; the well is already stored without its factor, later calls raise KeyError.
37. (C97) `set_boundaries` between steps overwrites the rates and pressures recorded for the last completed step (the row of the current time step), so the recorded history no longer satisfies the balance it was computed with.

Scaled data
38. (C99) Directly after `compile` every scaled time and pressure is NaN (ranges of one value are divided by 0); a boundary pressure set after a step makes all scaled pressures NaN (`dropna` removes the column before the fit only if all its values are missing); without initial pressure `get_df(scale=True)` raises ValueError, on the 1x1x1 grid IndexError, also for the times alone.
39. (C102) Bottom-hole pressures are scaled by the range of the cell pressures and leave it; cells without flow are left out of the fit of the rates, and their zero is then scaled to a value outside the range.
40. (C103) `drop_zero` is applied after scaling: a cell whose scaled pressure is 0 is left out.
41. (C112, C60) `__calc_b_term` is cached without the boundary condition in its key: after a changed boundary pressure the vectorised step of an incompressible model records the boundary rate of the old pressure (0 instead of 40 in the witness), and a discarded step (`solve(update=False)`) at time 0 fixes the boundary pressure used by all later steps.
42. (C114) The symbolic assembly keeps the equation of every cell in `model.cells_terms` and `set_well` and `set_boundaries` do not remove it: after the first symbolic step a new rate, a new rate-controlled well and a new boundary condition have no effect on later symbolic steps, and a new pressure-controlled well overwrites the last connection of its cell.
43. (C117) `set_well(well=...)` stores `vars(well)` and `set_boundaries` the dictionary it is given, not copies: one well object in two cells or two models is one well (the productivity and equivalent radius of the second cell replace those of the first), and changes the caller makes afterwards change the model.
44. (C119) `get_cells_icoords()` raises on every grid: its default `fmt=None` is not a format (`reformat` raises ValueError); on one- and two-dimensional grids without unify it also raises with a format, AssertionError, because of the zero coordinates (finding of C12), and with `fshape=True`.
45. (C119) `get_prop(name, fshape=True, fmt=...)` reformats the n-dimensional array although the documentation says that fmt is ignored: `set` raises TypeError (rows are not hashable), rows of three entries become tuples, other rows arrays.
46. (C120) `remove_boundaries` of a dictionary ignores `remove` and `points` (every value is treated with `remove="both"`) and changes the caller's dictionary in place; after an exception half of it is changed.
47. (C121) `allow_synonyms` copies numbers: after it, `fluid.set_viscosity(v)` changes `fluid.mu` but not `fluid.viscosity` (the same for density, gravity, FVF and a well's rate, skin, radius). On a fluid without mu or B, or a well without rate, skin or radius (also with `s=0`, which sets nothing), it stops halfway with an AttributeError.
48. (C121) `BlackOil.allow_synonyms` refers to `set_trans` and `T`, which do not exist, and always raises AttributeError; `SinglePhase.allow_synonyms` replaces that of `Fluid`, so the compressibility names are never set.
49. (C124) `__get_matrices_symb` maps its rows over a thread pool and never reads the results, so exceptions in the threads are lost. A closed compressible reservoir at pressure 0: `solve(threading=False)` raises TypeError (the equation has no constant, is left unsimplified and its right-hand side is not a number), while with threads (the default of `run`) the system is 0 p = 0 and whatever the solver returns is recorded.
50. (C125) `set_boundaries` accepts conditions on edge and corner cells, which have no interior neighbour. A rate there is recorded in every row of rates but enters no equation (the material balance error is 1); after a pressure there every step raises ValueError, the symbolic one after it has already appended the new rows.
51. (C127) The attributes `shape`, `n`, `n_max` and `fshape` of a grid hold what the last *computed* query left: after `get_n(False); get_n(True); get_n(False)` on three cells the answer is 3 and `grid.n` is 5, because the cached call does not set it again. (`get_D` and `get_fdir`, which the other queries read through attributes, are safe: their values do not depend on arguments.)
52. (C128) `RegularCartesian.allow_synonyms` raises AttributeError unless kx, ky, kz and phi have all been given, so on a line or a single layer described by its own permeabilities it always fails (after setting some names). It replaces `Grid.allow_synonyms`, so `compressibility` and `set_compressibility` never exist on a grid. The names are references: `set_props(phi=..)` for all cells leaves `porosity` at the old array, the same call for one cell is seen through both.
53. (C129) `save_gif` and the slider of `show_model` go over `range(solution.nsteps)`; a direct call of `solve` appends a row without counting it (C50), so its step is never shown. `get_annotations` uses the values as keys of a dictionary: where all values are equal, "min" and "max" are overwritten and only "avg" is marked. `show(label="icoords", boundary=True)` raises AssertionError on every grid with one or two flow directions and unify=False, because `get_cell_icoords` drops the zero coordinates of boundary cells. `get_window_size("8k")` is 7680 x 3420 (4320 intended). The texts of `show_model` say "pressure" also for rates (not modelled).
