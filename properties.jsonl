{"id": "C01", "title": "Flow dimension and direction", "statement": "For a RegularCartesian grid of any size, get_fdir() names exactly the axes along which there is more than one cell, in the order x, y, z ('-' if there is none), get_D() is their number, and get_shape(True) adds two boundary cells along exactly those axes; get_n is the product of the shape.", "quantifier": "all nx, ny, nz >= 1", "why_tests_cant": "There are infinitely many grid sizes and eight direction patterns; get_fdir is computed through argmax/argmin of the shape.", "anchors": ["reservoirflow/grids/regular_cartesian.py:get_D,get_fdir,get_shape,get_n,get_n_max"]}
{"id": "C02", "title": "Cell ids and coordinates are inverse to each other", "statement": "get_cell_id and get_cell_coords are mutually inverse bijections between the ids 0..n-1 and the coordinate triples of the grid (x fastest, then y, then z); coordinates outside the grid have no id.", "quantifier": "all grids, all ids, all coordinate triples", "why_tests_cant": "Unbounded number of grids and cells.", "anchors": ["reservoirflow/grids/regular_cartesian.py:get_cell_id,get_cell_coords,get_cells_coords"]}
{"id": "C03", "title": "Interior ids and boundary ids partition the grid", "statement": "For every grid with at least one flow direction, and for both values of unify, get_cells_id(boundary=False) and get_boundaries('id') are strictly increasing, disjoint, and together list every id exactly once; a cell is interior exactly if each flow coordinate lies in 1..n of its axis, and there are nx*ny*nz of them.", "quantifier": "all nx, ny, nz with at least one > 1, both unify settings", "why_tests_cant": "Slicing patterns differ per flow direction and unify flag; sizes are unbounded.", "anchors": ["reservoirflow/grids/regular_cartesian.py:get_cells_id,get_order,remove_boundaries,extract_boundaries,get_boundaries"]}
{"id": "C04", "title": "A single-cell grid also separates interior from boundary", "statement": "On the 1x1x1 grid no cell is reported both as interior and as boundary, and the geometry-factor matrix is defined.", "quantifier": "the grid nx = ny = nz = 1, both unify settings", "why_tests_cant": "The suite contains no 1x1x1 grid; this is the degenerate end of C03.", "anchors": ["reservoirflow/grids/regular_cartesian.py:remove_boundaries,extract_boundaries,get_cells_G"]}
{"id": "C05", "title": "remove_boundaries returns the interior values", "statement": "For any per-cell data, remove_boundaries(data) (remove='both') returns exactly the values of the interior cells in increasing id order, whatever the data, the grid size and the unify flag; remove='left'/'right' drops only the first/last layer in each flow direction.", "quantifier": "all arrays over all grids with D >= 1, both unify flags, three remove modes", "why_tests_cant": "Arbitrary data and sizes.", "anchors": ["reservoirflow/grids/regular_cartesian.py:remove_boundaries"]}
{"id": "C06", "title": "extract_boundaries returns the boundary values", "statement": "For any per-cell data, extract_boundaries(data, points=True) lists the value of every boundary cell exactly once and no interior one, and for numeric data it is the sorted list of those values.", "quantifier": "all arrays over all grids with D >= 1, both unify flags", "why_tests_cant": "Arbitrary data and sizes.", "anchors": ["reservoirflow/grids/regular_cartesian.py:extract_boundaries"]}
{"id": "C07", "title": "Neighbours by id are exactly the face-adjacent cells", "statement": "get_cell_neighbors(id, boundary=False) returns, per direction, exactly the interior cells sharing a face with that cell in that direction (never a cell from the other end of a neighbouring row or layer), for interior and boundary cells alike; with boundary=True and an interior cell it returns exactly the two face-adjacent cells in each flow direction; a boundary cell with boundary=True is rejected.", "quantifier": "all grids with D >= 1, all valid cells", "why_tests_cant": "id arithmetic (id+-1, id+-nx, id+-nx*ny) can wrap between rows and layers; only an argument over all sizes excludes it.", "anchors": ["reservoirflow/grids/regular_cartesian.py:get_cell_neighbors"]}
{"id": "C08", "title": "Neighbours by coordinates agree with neighbours by id", "statement": "Converting the result of get_cell_neighbors(coords=c) to ids gives get_cell_neighbors(id=id(c)), direction by direction and in the same order, for both boundary flags.", "quantifier": "all grids with D >= 1, all valid cells", "why_tests_cant": "Two independent code paths over unbounded inputs.", "anchors": ["reservoirflow/grids/regular_cartesian.py:get_cell_neighbors"]}
{"id": "C09", "title": "The neighbour relation is symmetric", "statement": "If b is listed as a neighbour of interior cell a then a is listed as a neighbour of b, in the same direction.", "quantifier": "all grids with D >= 1, all pairs of interior cells", "why_tests_cant": "Quadratically many pairs over unbounded grids.", "anchors": ["reservoirflow/grids/regular_cartesian.py:get_cell_neighbors"]}
{"id": "C10", "title": "Cell boundaries complete the neighbours", "statement": "For an interior cell, get_cell_boundaries and get_cell_neighbors(boundary=False) are disjoint and together make up get_cell_neighbors(boundary=True), which has 2*D elements; a boundary cell passed to get_cell_boundaries is rejected.", "quantifier": "all grids with D >= 1, all cells", "why_tests_cant": "Unbounded grids.", "anchors": ["reservoirflow/grids/regular_cartesian.py:get_cell_boundaries,get_cell_neighbors"]}
{"id": "C11", "title": "A boundary cell has at most one interior neighbour", "statement": "Every boundary cell has at most one interior neighbour, and exactly one if and only if it lies on exactly one outer face (is not an edge or corner cell).", "quantifier": "all grids with D >= 1, all boundary cells", "why_tests_cant": "The FDM assembly unpacks exactly one neighbour; whether that can fail depends on all positions.", "anchors": ["reservoirflow/grids/regular_cartesian.py:get_cell_neighbors", "reservoirflow/solutions/numerical/fdm.py:get_matrices_vect,__update_boundaries"]}
{"id": "C12", "title": "Lookups by coordinates equal lookups by id", "statement": "get_cell_d, get_cell_A, get_cell_V, get_cell_center and get_cell_k give the same value for a cell whether it is named by id or by coordinates.", "quantifier": "all grids, all cells, both unify flags", "why_tests_cant": "The coordinate path depends on the unify flag and drops zero coordinates.", "anchors": ["reservoirflow/grids/regular_cartesian.py:get_cell_icoords,get_cell_d,get_cell_A,get_cell_V,get_cell_center,get_cell_k"]}
{"id": "C13", "title": "Axis spacing is laid out per cell in natural order", "statement": "The dx (dy, dz) reported for a cell equals the entry of the given spacing vector at that cell's x (y, z) coordinate; scalars are repeated; vectors of the wrong length are rejected.", "quantifier": "all grids, all spacing vectors or scalars", "why_tests_cant": "The layout goes through meshgrid, transposition and reshape; correctness for every size is an index identity.", "anchors": ["reservoirflow/grids/regular_cartesian.py:__calc_cells_d_,__calc_cells_d,get_cells_d"]}
{"id": "C14", "title": "Areas and volumes", "statement": "For every cell Ax = dy*dz, Ay = dx*dz, Az = dx*dy, V = Ax*dx = Ay*dy = Az*dz; the total volume is the product of the three total lengths and the interior total is the sum over interior cells.", "quantifier": "all grids and spacings", "why_tests_cant": "Unbounded sizes and real-valued spacings.", "anchors": ["reservoirflow/grids/regular_cartesian.py:__calc_cells_A,__calc_cells_V,get_Vt,get_cells_V"]}
{"id": "C15", "title": "Cell centres are the midpoints of the cell faces", "statement": "The centre of cell (i,j,k) in each axis is the sum of the spacings before it plus half its own, so that consecutive centres differ by the mean of the two spacings.", "quantifier": "all grids and spacings", "why_tests_cant": "cumsum/meshgrid/transpose/concatenate index identity over all sizes.", "anchors": ["reservoirflow/grids/regular_cartesian.py:get_cells_center,get_cell_center"]}
{"id": "C16", "title": "Corner points of the pyvista grid", "statement": "get_corners lists 8 points per cell in structured order; the corners of cell (i,j,k) are the cumulative spacings before and after it in each axis, so that the enclosed box has exactly the cell's dx, dy, dz.", "quantifier": "all grids and spacings, both boundary flags", "why_tests_cant": "repeat/tile/transpose index identity over all sizes.", "anchors": ["reservoirflow/grids/regular_cartesian.py:get_corners"]}
{"id": "C17", "title": "Setting a property of one cell changes that cell only", "statement": "set_props(prop=value, id=i) (or coords=c) makes the property of that cell equal to value and leaves all other cells as they were.", "quantifier": "all grids, all cells, both unify flags", "why_tests_cant": "The index used depends on unify, on the direction and on zero coordinates.", "anchors": ["reservoirflow/grids/regular_cartesian.py:set_prop,set_props,get_cell_icoords"]}
{"id": "C18", "title": "Accessors reflect the latest properties", "statement": "After set_props, every accessor (get_cell_k, get_cell_G, is_isotropic, get_cells_k, get_cells_G) reports values computed from the new properties.", "quantifier": "all sequences of property updates and queries, over several grids", "why_tests_cant": "Staleness depends on the call history and on cache capacity and eviction.", "anchors": ["reservoirflow/grids/regular_cartesian.py:set_props,get_cell_k,get_cell_G,is_isotropic", "reservoirflow/utils/helpers.py:_lru_cache"]}
{"id": "C19", "title": "A memoised accessor is transparent while the state is unchanged", "statement": "Along any interleaving of calls (several objects, several arguments, any cache capacity) in which the state read by the accessor is not changed, the memoised accessor returns what the plain one would return, and keeps at most maxsize entries.", "quantifier": "all call sequences, all capacities", "why_tests_cant": "Evictions depend on the whole history.", "anchors": ["reservoirflow/utils/helpers.py:_lru_cache"]}
{"id": "C20", "title": "Geometry factors are symmetric and positive", "statement": "The geometry factor reported from cell a to its neighbour b equals the one reported from b to a, and is positive if spacings and permeabilities are.", "quantifier": "all grids, spacings, permeability fields, both branches", "why_tests_cant": "Real-valued data over unbounded grids.", "anchors": ["reservoirflow/grids/regular_cartesian.py:get_cell_G"]}
{"id": "C21", "title": "Arithmetic and harmonic geometry factors agree on isotropic grids", "statement": "When the permeability of the two cells is equal, the arithmetic formula used for isotropic grids equals the harmonic (series) formula, even if the spacing is irregular, because adjacent cells share their face area.", "quantifier": "all spacings, all pairs of adjacent cells", "why_tests_cant": "Algebraic identity over the reals, relies on the layout of all spacings.", "anchors": ["reservoirflow/grids/regular_cartesian.py:get_cell_G,get_cells_G_diag_1,get_cells_G_diag_2"]}
{"id": "C22", "title": "Vectorised and per-cell geometry factors agree in 1D and 2D", "statement": "For grids with one or two flow directions, entry (a,b) of get_cells_G(boundary=False) equals the factor get_cell_G reports from the a-th to the b-th interior cell if they are neighbours, and 0 otherwise.", "quantifier": "all 1D and 2D grids, spacings, permeability fields", "why_tests_cant": "Diagonal construction with zeroed row ends; sizes unbounded.", "anchors": ["reservoirflow/grids/regular_cartesian.py:get_cells_G,get_cells_G_diag_1,get_cells_G_diag_2,get_cell_G"]}
{"id": "C23", "title": "Vectorised and per-cell geometry factors agree in 3D", "statement": "The same agreement for grids with three flow directions.", "quantifier": "all 3D grids", "why_tests_cant": "The tests compare pressures on 3D grids only loosely.", "anchors": ["reservoirflow/grids/regular_cartesian.py:get_cells_G_diag_3,get_cells_G"]}
{"id": "C24", "title": "The transmissibility matrix is symmetric with empty diagonal", "statement": "get_cells_trans(vectorize=True) is symmetric and has a zero diagonal for every grid with D >= 1.", "quantifier": "all grids, spacings, permeability fields", "why_tests_cant": "Unbounded sizes.", "anchors": ["reservoirflow/grids/regular_cartesian.py:get_cells_G", "reservoirflow/models/black_oil.py:get_cells_trans"]}
{"id": "C25", "title": "Compressibility type follows compressibility", "statement": "After any sequence of set_comp calls on grid, fluid or model that do not raise, comp_type is 'incompressible' exactly if comp = 0 and 'compressible' exactly if comp > 0; a negative value raises ValueError and does not leave the object with a rejected compressibility.", "quantifier": "all call sequences and values", "why_tests_cant": "State after a rejected call is a matter of statement order.", "anchors": ["reservoirflow/grids/grid.py:set_comp", "reservoirflow/fluids/fluid.py:set_comp", "reservoirflow/models/model.py:set_comp"]}
{"id": "C26", "title": "Model compressibility combines grid and fluid", "statement": "For a model built from a grid and a fluid, the model is incompressible exactly if both are, and otherwise comp is the sum of the two; the accumulation coefficient of each cell is V*phi*comp/(volume factor*B*dt), zero for incompressible models, positive otherwise.", "quantifier": "all grids, fluids, dt", "why_tests_cant": "Real-valued data.", "anchors": ["reservoirflow/models/black_oil.py:__calc_comp,__calc_RHS"]}
{"id": "C27", "title": "Units and conversion factors stay consistent", "statement": "After any sequence of set_units calls, including rejected ones, units and factors belong to the same, last accepted unit system; an unknown name raises ValueError and changes nothing.", "quantifier": "all call sequences", "why_tests_cant": "History dependent.", "anchors": ["reservoirflow/base.py:set_units"]}
{"id": "C28", "title": "Fluid gravity matches density and units", "statement": "The fluid's gravity term g always equals gravity conversion * rho * g for the current unit system.", "quantifier": "all sequences of set_units, set_rho, set_props", "why_tests_cant": "Depends on the order of calls.", "anchors": ["reservoirflow/fluids/single_phase.py:set_rho", "reservoirflow/base.py:set_units"]}
{"id": "C29", "title": "Well control mode after any sequence of set_well calls", "statement": "After any sequence of keyword set_well calls on a cell, the well is rate-controlled exactly if some call gave q (then q and q_sp are the last given q), pressure-controlled exactly if none gave q and some gave pwf, and uncontrolled otherwise; pwf and pwf_sp are the last given pwf, or 0.", "quantifier": "all call sequences", "why_tests_cant": "History dependent; unbounded sequences.", "anchors": ["reservoirflow/models/black_oil.py:set_well"]}
{"id": "C30", "title": "Wells are only placed in interior cells", "statement": "set_well on a cell that is not interior raises and leaves the model as it was; a successful call changes no other well.", "quantifier": "all grids, all cells, all arguments", "why_tests_cant": "All cells of all grids.", "anchors": ["reservoirflow/models/black_oil.py:set_well"]}
{"id": "C31", "title": "A failing set_well leaves no trace", "statement": "If set_well raises, the set of wells is unchanged.", "quantifier": "all grids, all arguments", "why_tests_cant": "Failure after partial mutation is not tested.", "anchors": ["reservoirflow/models/black_oil.py:set_well,__calc_well_G,__calc_well_r_eq"]}
{"id": "C32", "title": "Equivalent radius and well geometry factor", "statement": "The equivalent well radius is positive, is symmetric under exchanging the roles of x and y, and reduces to 0.14*sqrt(dx^2+dy^2) for equal permeabilities; the well geometry factor is positive whenever ln(12*r_eq/r)+s is, and strictly decreases with the skin s.", "quantifier": "all positive spacings, permeabilities, radii", "why_tests_cant": "Real-valued identities with square roots and logarithms.", "anchors": ["reservoirflow/models/black_oil.py:__calc_well_r_eq,__calc_well_G"]}
{"id": "C33", "title": "A well object behaves like the keyword arguments", "statement": "set_well(well=SingleCell(cell_id=c, q=q, r=r, s=s)) produces the same well state and the same flow as set_well(cell_id=c, q=q, r=r, s=s).", "quantifier": "all wells", "why_tests_cant": "Object path not tested with a solve.", "anchors": ["reservoirflow/models/black_oil.py:set_well", "reservoirflow/wells/single_cell.py:set_props", "reservoirflow/solutions/numerical/fdm.py:__update_wells"]}
{"id": "C34", "title": "Spelling variants of a boundary condition are equivalent", "statement": "set_boundaries treats 'pressure', 'press', 'p' (any letter case) alike, and likewise the variants of 'rate' and 'gradient'.", "quantifier": "all models, all boundary dictionaries", "why_tests_cant": "Only the canonical spelling is tested.", "anchors": ["reservoirflow/models/black_oil.py:set_boundary,set_boundaries", "reservoirflow/solutions/numerical/fdm.py:get_matrices_vect,__calc_b_term,__update_boundaries"]}
{"id": "C35", "title": "set_all_boundaries equals setting every boundary", "statement": "set_all_boundaries(cond, v) has the same effect on a simulation as set_boundaries mapping every (face) boundary cell to (cond, v).", "quantifier": "all models, conditions, values", "why_tests_cant": "Not tested with a solve.", "anchors": ["reservoirflow/models/black_oil.py:set_all_boundaries,set_boundary,set_boundaries", "reservoirflow/solutions/numerical/fdm.py:get_matrices_vect"]}
{"id": "C36", "title": "Boundary conditions may be set before or after compile", "statement": "Setting the same boundary conditions before or after compile gives the same linear system for the first step.", "quantifier": "all models, all boundary dictionaries", "why_tests_cant": "Order of calls.", "anchors": ["reservoirflow/models/black_oil.py:set_boundaries,__set_rate,get_init_arrays", "reservoirflow/solutions/solution.py:__init__", "reservoirflow/solutions/numerical/fdm.py:get_matrices_vect"]}
{"id": "C37", "title": "Gradient boundaries in the symbolic and the vectorised path", "statement": "A 'gradient' boundary contributes the flow rate transmissibility*spacing*gradient in both the vectorised and the symbolic assembly.", "quantifier": "all models and gradients", "why_tests_cant": "Symbolic path is not tested with gradients.", "anchors": ["reservoirflow/models/black_oil.py:set_boundary", "reservoirflow/solutions/numerical/fdm.py:__calc_b_term,get_matrices_vect"]}
{"id": "C38", "title": "The assembled matrix is a discrete diffusion operator", "statement": "Before boundary and well terms, the vectorised matrix has non-negative off-diagonals, is symmetric, and each row sums to minus the cell's accumulation coefficient.", "quantifier": "all grids with D >= 1, all property fields", "why_tests_cant": "Unbounded sizes.", "anchors": ["reservoirflow/solutions/numerical/fdm.py:__init_A", "reservoirflow/models/black_oil.py:get_cells_trans"]}
{"id": "C39", "title": "Compressible systems have exactly one solution", "statement": "For a compressible model with positive data the linear system of the vectorised path has at most one solution (its homogeneous system has only the zero solution) in every reachable state, whatever wells and boundaries were set before, during or after earlier steps.", "quantifier": "all grids with D >= 1, all property fields, all histories of set_well, set_boundary(ies), compile, solve and run with wells of non-negative productivity", "why_tests_cant": "Non-singularity for all sizes is a proof (strict diagonal dominance).", "anchors": ["reservoirflow/solutions/numerical/fdm.py:__init_A,get_matrices_vect"]}
{"id": "C40", "title": "Closed incompressible systems are singular", "statement": "For an incompressible model without pressure boundaries and without pressure-controlled wells, the vectorised matrix of every step maps constant vectors to zero, so the solution of a step is never unique, and it exists only if the rates sum to zero.", "quantifier": "all grids with D >= 1, all histories of steps whose wells keep their control", "why_tests_cant": "All sizes.", "anchors": ["reservoirflow/solutions/numerical/fdm.py:__init_A,get_matrices_vect"]}
{"id": "C41", "title": "One pressure condition makes an incompressible system regular", "statement": "For a model with at least one pressure boundary, or a well controlled by a bottom-hole pressure other than zero, the vectorised system of the first step has at most one solution even if the model is incompressible; with a pressure boundary this holds for all steps.", "quantifier": "all grids with D >= 1, positive property fields, all histories", "why_tests_cant": "Needs connectivity of every grid.", "anchors": ["reservoirflow/solutions/numerical/fdm.py:get_matrices_vect"]}
{"id": "C42", "title": "Vectorised and symbolic systems are equivalent", "statement": "On a level grid in 1D or 2D with canonical pressure/rate boundaries on faces, a pressure vector solves the vectorised system of a step exactly if it solves the symbolic one.", "quantifier": "all grids, property fields, wells (rate or non-zero pressure control, factor not negative), boundaries in that class, all points of histories of balanced steps", "why_tests_cant": "Two code paths, unbounded inputs.", "anchors": ["reservoirflow/solutions/numerical/fdm.py:get_matrices_vect,get_matrices_symb,get_cell_eq"]}
{"id": "C43", "title": "Material balance of an incompressible step", "statement": "After a step whose linear system is solved exactly and in which no well changes its control mode, the recorded rates of all boundary cells and wells sum to zero.", "quantifier": "all models whose conditions are set by set_well and one set_boundaries on cells lying on one face, that are level or have no rate-controlled well, and have no well controlled by the pressure 0; all histories of steps, vectorised (or symbolic without threads when the conditions are pressures or rates)", "why_tests_cant": "Telescoping over all cells of all grids.", "anchors": ["reservoirflow/solutions/numerical/fdm.py:solve,__update_boundaries,__update_wells,check_MB"]}
{"id": "C44", "title": "Material balance of a compressible step", "statement": "Under the same conditions for a compressible model, the accumulated amount sum(RHS*(p_new-p_old)) equals the sum of the recorded rates, so the reported incremental error is 0.", "quantifier": "all such models, all histories", "why_tests_cant": "Telescoping over all cells of all grids.", "anchors": ["reservoirflow/solutions/numerical/fdm.py:solve,check_MB"]}
{"id": "C45", "title": "The cumulative material balance indicator", "statement": "If every step is balanced, the cumulative indicator reported by check_MB equals 1 at every time step.", "quantifier": "all compressible runs", "why_tests_cant": "Needs induction over the run.", "anchors": ["reservoirflow/solutions/numerical/fdm.py:check_MB"]}
{"id": "C46", "title": "Uniform pressure without sources stays uniform", "statement": "A compressible model without wells and without open boundaries that starts at uniform pressure keeps exactly that pressure in every step.", "quantifier": "all grids, property fields, histories of vectorised steps; for level grids also symbolic and mixed histories", "why_tests_cant": "Induction over steps and all sizes.", "anchors": ["reservoirflow/solutions/numerical/fdm.py:solve,run"]}
{"id": "C47", "title": "Discrete maximum principle", "statement": "Without wells and with closed boundaries, every new pressure of a compressible step lies between the smallest and the largest old pressure.", "quantifier": "all grids, property fields, pressure fields, histories of vectorised steps; for level grids also symbolic and mixed histories", "why_tests_cant": "All sizes and real data.", "anchors": ["reservoirflow/solutions/numerical/fdm.py:get_matrices_vect,solve"]}
{"id": "C48", "title": "Hydrostatic equilibrium", "statement": "With gravity, no wells and closed boundaries, a hydrostatic pressure field is reproduced by a step, in the symbolic and in the vectorised path.", "quantifier": "all grids with depth", "why_tests_cant": "Gravity is only tested with one well configuration.", "anchors": ["reservoirflow/solutions/numerical/fdm.py:__calc_n_term,__update_z,get_matrices_vect"]}
{"id": "C49", "title": "History is append-only", "statement": "A successful solve(update=True) appends exactly one row to pressures and rates and increments tstep by one, also when the step had to be re-solved; all earlier rows and, in the new row, pressures of boundary cells are unchanged.", "quantifier": "all models, all histories, all numbers of re-solves", "why_tests_cant": "History and recursion dependent.", "anchors": ["reservoirflow/solutions/numerical/fdm.py:solve"]}
{"id": "C50", "title": "Step counter, number of rows and nsteps agree", "statement": "At any time the number of rows of pressures and rates is tstep+1 and equals solution.nsteps.", "quantifier": "all sequences of solve and run", "why_tests_cant": "nsteps is only advanced by run.", "anchors": ["reservoirflow/solutions/numerical/fdm.py:solve,run", "reservoirflow/solutions/solution.py:__init__", "reservoirflow/models/black_oil.py:get_shape"]}
{"id": "C51", "title": "Stored systems match the steps", "statement": "As and ds hold one row per accepted time step (plus the initial row).", "quantifier": "all histories", "why_tests_cant": "Only visible with re-solved steps.", "anchors": ["reservoirflow/solutions/numerical/fdm.py:solve"]}
{"id": "C52", "title": "Re-solving terminates", "statement": "A step is re-solved at most once per well, so solve terminates whatever pressures the linear solver returns (as long as no estimated pressure ties exactly with its limit).", "quantifier": "all solver answers, all sets of wells", "why_tests_cant": "Recursion on the outcome of a solver.", "anchors": ["reservoirflow/solutions/numerical/fdm.py:solve,__update_wells"]}
{"id": "C53", "title": "The requested linear solver is used", "statement": "solve(isolver=name) uses the requested linear solver for all systems it solves in that call.", "quantifier": "all histories", "why_tests_cant": "Needs a re-solved step.", "anchors": ["reservoirflow/solutions/numerical/fdm.py:solve"]}
{"id": "C54", "title": "Bottom-hole pressure limit is respected", "statement": "After every successful step each well's bottom-hole pressure is at least its limit pwf_sp; a pressure-controlled well flows at -J*(p-pwf_sp), and a well that has always been rate-controlled flows at q_sp.", "quantifier": "all models, solver answers, histories", "why_tests_cant": "All histories.", "anchors": ["reservoirflow/solutions/numerical/fdm.py:__update_wells,__calc_w_term"]}
{"id": "C55", "title": "A well returning to rate control flows at its specified rate", "statement": "When a pressure-controlled well returns to rate control, its flow is again q_sp and its equation no longer contains the pressure-control term.", "quantifier": "all histories with a switch back", "why_tests_cant": "Needs a specific history.", "anchors": ["reservoirflow/solutions/numerical/fdm.py:__update_wells,get_matrices_vect,__calc_w_term"]}
{"id": "C56", "title": "A bottom-hole pressure of zero is honoured", "statement": "A pressure-controlled well with pwf = 0 contributes -J*p to its cell's equation.", "quantifier": "all models", "why_tests_cant": "The value 0 (the default limit) is never reached in the tests.", "anchors": ["reservoirflow/solutions/numerical/fdm.py:get_matrices_vect", "reservoirflow/models/black_oil.py:set_well"]}
{"id": "C57", "title": "A pressure boundary may have any value", "statement": "A pressure boundary with any value is accepted by solve.", "quantifier": "all values", "why_tests_cant": "The value 0 is not tested.", "anchors": ["reservoirflow/solutions/numerical/fdm.py:get_matrices_vect"]}
{"id": "C58", "title": "solve(update=False) is a dry run", "statement": "solve(update=False) changes neither pressures, rates, tstep nor wells, and calling it any number of times does not change the system solved next.", "quantifier": "all models, all histories", "why_tests_cant": "Mutable matrices are updated in place.", "anchors": ["reservoirflow/solutions/numerical/fdm.py:solve,get_matrices_vect"]}
{"id": "C59", "title": "Threaded assembly is schedule independent", "statement": "The symbolic matrices do not depend on the order in which the cell tasks write their rows.", "quantifier": "all schedules of all cell tasks", "why_tests_cant": "All interleavings.", "anchors": ["reservoirflow/solutions/numerical/fdm.py:get_matrices_symb,__update_matrices_symb,get_cells_eq"]}
{"id": "C60", "title": "Changed boundary conditions take effect in the next step", "statement": "After set_boundaries during a simulation the next step uses the new conditions.", "quantifier": "all histories", "why_tests_cant": "Mid-run changes are not tested.", "anchors": ["reservoirflow/solutions/numerical/fdm.py:get_matrices_vect,get_cell_eq", "reservoirflow/models/black_oil.py:set_boundaries"]}
{"id": "C61", "title": "A missing initial pressure is reported", "statement": "Running a compressible model without pi raises the documented exception.", "quantifier": "all compressible models", "why_tests_cant": "NaN arithmetic does not raise.", "anchors": ["reservoirflow/solutions/numerical/fdm.py:__init_d,__calc_a_term"]}
{"id": "C62", "title": "A failing compile changes nothing", "statement": "If compile raises, model.solution, the list of solutions, the compiler and solve/run are unchanged.", "quantifier": "all models, all argument strings", "why_tests_cant": "All strings, all failure points.", "anchors": ["reservoirflow/models/model.py:compile", "reservoirflow/solutions/compiler.py:Compiler"]}
{"id": "C63", "title": "Compile resolves names case-insensitively and uniquely", "statement": "compile accepts every documented name of a solution type and method in any letter case and maps it to that method; no name denotes two methods; unknown names raise ValueError.", "quantifier": "all strings", "why_tests_cant": "All strings.", "anchors": ["reservoirflow/solutions/compiler.py:STYPES,METHODS,__set_stype,__set_method"]}
{"id": "C64", "title": "Every iDjP name selects the i-dimension j-phase method", "statement": "The documented short names '1D1P', '1D2P', ... '3D3P' each select the method of that dimension and number of phases.", "quantifier": "i, j in 1..3", "why_tests_cant": "Only 1D1P exists as a working class, so tests never exercise the others.", "anchors": ["reservoirflow/solutions/compiler.py:METHODS,__set_method"]}
{"id": "C65", "title": "Switching between compiled solutions", "statement": "set_solution(name) re-activates exactly the solution compiled under that name with its history; unknown names raise ValueError and change nothing; distinct (type, method, sparse) combinations never share a name.", "quantifier": "all sequences of compile and set_solution", "why_tests_cant": "History dependent.", "anchors": ["reservoirflow/models/model.py:compile,set_solution,get_solutions", "reservoirflow/solutions/compiler.py:__str__"]}
{"id": "C66", "title": "MinMax scaling is invertible", "statement": "For vmin != vmax and Vmin != Vmax, inverse_transform(transform(v)) = v and transform(inverse_transform(w)) = w for all values; vmin maps to Vmin and vmax to Vmax.", "quantifier": "all real values and ranges", "why_tests_cant": "Real-valued identity.", "anchors": ["reservoirflow/scalers/minmax.py:MinMax"]}
{"id": "C67", "title": "Fitted MinMax output stays in the output range", "statement": "After fit on data with at least two distinct values, every fitted value is mapped into [Vmin, Vmax], both ends are attained, and the order of values is preserved.", "quantifier": "all data sets, all ranges", "why_tests_cant": "Arbitrary data.", "anchors": ["reservoirflow/scalers/minmax.py:fit,transform,fit_transform"]}
{"id": "C68", "title": "Unfitted and dummy scalers", "statement": "An unfitted MinMax raises on transform and inverse_transform; once fitted it never does; Dummy is the identity.", "quantifier": "all call sequences", "why_tests_cant": "Histories.", "anchors": ["reservoirflow/scalers/minmax.py:__check_vmin_vmax__", "reservoirflow/scalers/dummy.py:Dummy"]}
{"id": "C69", "title": "set_scalers configures the named columns", "statement": "set_scalers sets exactly the scalers of the named columns; 'all' sets the scalers of all columns; an unknown column or scaler type raises.", "quantifier": "all dictionaries", "why_tests_cant": "All dictionaries.", "anchors": ["reservoirflow/models/black_oil.py:set_scalers"]}
{"id": "C70", "title": "Time vector", "statement": "The time vector has tstep+1 entries t*dt for every dt > 0.", "quantifier": "all tstep, all dt", "why_tests_cant": "np.arange with a floating step is sensitive to rounding.", "anchors": ["reservoirflow/models/black_oil.py:__get_time_vector,get_time"]}
{"id": "C71", "title": "Rows of the melted data frame are aligned", "statement": "In get_df(melt=True) before dropping, row r carries id, coordinates, time, pressure and rate of the same cell r mod n and the same step r div n.", "quantifier": "all runs, grids, column selections", "why_tests_cant": "Index identity over all sizes.", "anchors": ["reservoirflow/models/black_oil.py:get_df,__add_time,__add_xyz,__add_cells_rate,__add_cells_pressures"]}
{"id": "C72", "title": "Well pressures have one entry per time step", "statement": "For every well the list of recorded bottom-hole pressures has tstep+1 entries.", "quantifier": "all sequences of set_well, compile, solve and run", "why_tests_cant": "History dependent.", "anchors": ["reservoirflow/models/black_oil.py:set_well,__add_wells_pressures", "reservoirflow/solutions/numerical/fdm.py:__update_wells"]}
{"id": "C73", "title": "Analytical solution honours its boundary pressures", "statement": "The D1P1 pressures at the first and last cell equal the given boundary pressures at every time, and all pressures lie between the smallest and largest initial pressure.", "quantifier": "all times, all numbers of Fourier terms, all data", "why_tests_cant": "Real-valued with sine and exponential.", "anchors": ["reservoirflow/solutions/analytical/d1p1.py:run,calc_solution"]}
{"id": "C74", "title": "Analytical solution solves the diffusion equation", "statement": "Every partial sum of the D1P1 series (before clipping) satisfies dp/dt = d2p/dx2 in dimensionless variables.", "quantifier": "all times, positions, numbers of terms", "why_tests_cant": "Continuum statement.", "anchors": ["reservoirflow/solutions/analytical/d1p1.py:run,calc_solution"]}
{"id": "C75", "title": "Analytical pressures have one row per time step", "statement": "After D1P1.run(nsteps) the pressures have nsteps+1 rows.", "quantifier": "all runs", "why_tests_cant": "Broadcasting of a per-cell diffusivity.", "anchors": ["reservoirflow/solutions/analytical/d1p1.py:run", "reservoirflow/models/black_oil.py:get_alpha"]}
{"id": "C76", "title": "Models on one grid are independent", "statement": "Setting boundary rates on one model does not change the initial rates of another model built on the same grid.", "quantifier": "all interleavings of constructing models, compiling and setting boundaries", "why_tests_cant": "Aliasing of a cached array depends on the call history.", "anchors": ["reservoirflow/grids/regular_cartesian.py:get_zeros", "reservoirflow/models/black_oil.py:__get_arrays,set_boundary"]}
{"id": "C77", "title": "Solutions of one model are independent", "statement": "Running one compiled solution of a model does not change the outcome of another compiled solution of that model.", "quantifier": "all models, all interleavings", "why_tests_cant": "Wells and cached terms are shared through the model.", "anchors": ["reservoirflow/models/model.py:compile,set_solution", "reservoirflow/solutions/numerical/fdm.py:__update_wells,get_cell_eq"]}
{"id": "C78", "title": "Intersection helper", "statement": "intersection(x, y) contains exactly the rows common to both inputs, whichever of the two is the longer.", "quantifier": "all inputs", "why_tests_cant": "Arbitrary inputs.", "anchors": ["reservoirflow/utils/helpers.py:intersection,isin"]}
{"id": "C79", "title": "remove_diag helper", "statement": "remove_diag of an n x n matrix is the n x (n-1) matrix of its off-diagonal entries in row order.", "quantifier": "all matrices", "why_tests_cant": "Arbitrary sizes.", "anchors": ["reservoirflow/utils/helpers.py:remove_diag"]}
{"id": "C80", "title": "Property attributes show the current properties", "statement": "After any sequence of property updates, the attributes kx, ky, kz, phi and z of a grid (which the models read) equal what get_prop reports.", "quantifier": "all sequences of set_props and set_prop calls, successful or raising", "why_tests_cant": "The attribute and the dictionary entry may or may not be the same array, depending on the history of calls.", "anchors": ["reservoirflow/grids/regular_cartesian.py:set_props,set_prop,get_prop"]}
{"id": "C81", "title": "Unit tables cover the same quantities", "statement": "Every quantity that has a unit in one unit system has one in each of the three systems, every conversion factor is defined in each system, and all factors are positive.", "quantifier": "all unit systems, all quantities", "why_tests_cant": "A test looks up the quantities it knows; a quantity missing from one table only shows when that table is used with a label nobody tested.", "anchors": ["reservoirflow/base.py:UNITS,FACTORS"]}
{"id": "C82", "title": "A constructed model is well-formed", "statement": "A BlackOil model constructed from a grid with flow, positive spacings, permeabilities and porosities and a fluid with positive viscosity and formation volume factor has one accumulation coefficient per cell, all positive if the model is compressible and all zero if not, one height per cell, and the interior cells of the grid as its cells.", "quantifier": "all grids with D >= 1, all positive rock and fluid data, all unit systems", "why_tests_cant": "Tests construct a few models; later stages silently rely on the sign and the number of coefficients for every one.", "anchors": ["reservoirflow/models/black_oil.py:__init__,__initialize__,__calc_comp,__calc_RHS"]}
{"id": "C83", "title": "Rows of pressures and rates have one entry per cell", "statement": "After any sequence of calls, successful or not, every stored row of pressures and of rates (initial rows of the model and all rows of the solution) has exactly one entry for each cell of the grid including the boundary.", "quantifier": "all histories of set_well, set_boundary(ies), set_all_boundaries, compile, solve and run, with every solver and every exception", "why_tests_cant": "Tests look at rows after successful runs on a few grids; an exception in mid-step could leave a short row.", "anchors": ["reservoirflow/models/black_oil.py:set_well,set_boundaries,__put", "reservoirflow/solutions/numerical/fdm.py:solve,run,update_boundaries"]}
{"id": "C84", "title": "Columns of the data frame that is not melted", "statement": "After a successful history get_df(melt=False) has, before dropping, for each selected name exactly the columns Time, Date, Q<id>, P<id> for the cells, Qw<id> for the wells and Pwf<id> for the recorded bottom-hole pressures, with tstep+1 rows, and the entry of row t is the value at step t.", "quantifier": "all grids, histories, column selections", "why_tests_cant": "Combinatorial in selections and histories; lengths of independently recorded lists must agree.", "anchors": ["reservoirflow/models/black_oil.py:get_df,__add_time,__add_date,__add_cells_rate,__add_cells_pressures,__add_wells_rate,__add_wells_pressures"]}
{"id": "C85", "title": "What dropping removes", "statement": "Without melting get_df keeps exactly the columns with at least one value (drop_nan) and at least one non-zero entry (drop_zero), unchanged, in order and with all rows; with melting drop_nan keeps exactly the rows without a missing entry, in order and unchanged.", "quantifier": "all frames get_df can build", "why_tests_cant": "Tests compare the dropped frame with stored files of a few runs.", "anchors": ["reservoirflow/models/black_oil.py:get_df"]}
{"id": "C86", "title": "Analytical solution tends to the straight line", "statement": "As the dimensionless time grows every partial sum of the D1P1 series tends, uniformly along the line, to the straight line between the two boundary values.", "quantifier": "all numbers of terms, all boundary and initial values", "why_tests_cant": "A limit for time to infinity.", "anchors": ["reservoirflow/solutions/analytical/d1p1.py:run"]}
{"id": "C87", "title": "Analytical run needs both boundary pressures", "statement": "D1P1.run on a model one of whose end cells has no pressure is rejected.", "quantifier": "all models with flow along one axis, all missing pressures", "why_tests_cant": "A run that returns normally looks successful; only the entries show that nothing was computed.", "anchors": ["reservoirflow/solutions/analytical/d1p1.py:run", "reservoirflow/scalers/minmax.py:fit,transform"]}
{"id": "C88", "title": "Diffusivity along the flow", "statement": "The diffusivity of a cell used by the analytical solution is that of its permeability along the flow direction.", "quantifier": "all grids with flow along x, y or z", "why_tests_cant": "The test grids lie along x or have equal permeabilities.", "anchors": ["reservoirflow/solutions/analytical/d1p1.py:run", "reservoirflow/models/black_oil.py:get_alpha"]}
{"id": "C89", "title": "Analytical run is for one direction only", "statement": "D1P1.run on a grid with flow along two or three axes raises ValueError and leaves pressures and rates as they were.", "quantifier": "all such grids, numbers of steps and stored pressures", "why_tests_cant": "The rejection comes from a reshape whose sizes might agree for some grid or number of steps.", "anchors": ["reservoirflow/solutions/analytical/d1p1.py:run", "reservoirflow/models/black_oil.py:get_domain,get_centers,get_shape"]}
{"id": "C90", "title": "A failed analytical run changes nothing", "statement": "If D1P1.run raises, the solution's tstep and nsteps stay as they were.", "quantifier": "all models and runs", "why_tests_cant": "State after an exception.", "anchors": ["reservoirflow/solutions/analytical/d1p1.py:run"]}
{"id": "C91", "title": "Analytical runs do not depend on earlier runs", "statement": "If the smallest and the largest stored pressure are those of the two end cells, D1P1.run(n) gives the same result after any earlier run as without it.", "quantifier": "all lines, numbers of steps, numbers of terms", "why_tests_cant": "The run rescales by the extremes of whatever pressures are stored, so earlier results feed into later ones.", "anchors": ["reservoirflow/solutions/analytical/d1p1.py:run"]}
{"id": "C92", "title": "Every cell obeys its flow equation in every step", "statement": "After every balanced step, for every interior cell, the transmissibilities times the differences of potential to its neighbours, plus the recorded rate of its well, plus the recorded rates of its boundary cells, equal accumulation coefficient times change of pressure (0 for incompressible models); on the vectorised path in level reservoirs of one or two dimensions, on the symbolic path always.", "quantifier": "all grids, fluids, wells, boundary conditions, histories of steps with an exact solver, and all steps of the history", "why_tests_cant": "The repository's tests compare final pressures of a few cases; the equation has to hold in each cell of each step, with the recorded rates.", "anchors": ["reservoirflow/solutions/numerical/fdm.py:solve,get_matrices_vect,get_matrices_symb", "reservoirflow/solutions/numerical/fdm.py:__update_boundaries,__update_wells", "reservoirflow/models/black_oil.py:get_cell_trans"]}
{"id": "C93", "title": "Recorded rates follow the controls", "statement": "After every balanced step the recorded rate is: for a well in rate mode the rate set; for a well in pressure mode productivity times drawdown to the pressure set, negative for production; for a 'pressure' boundary twice the transmissibility times the difference of potential to its neighbour; for a rate boundary the rate; for a gradient boundary transmissibility times spacing times gradient; 0 everywhere else.", "quantifier": "all grids, fluids, wells, boundary conditions and histories of steps with an exact solver", "why_tests_cant": "Tests look at the rates of single configurations after few steps.", "anchors": ["reservoirflow/solutions/numerical/fdm.py:__update_boundaries,__update_wells,__calc_w_terms,__calc_b_terms", "reservoirflow/models/black_oil.py:set_well,set_boundaries"]}
{"id": "C94", "title": "A properly set up simulation never raises", "statement": "On the vectorised path, solve and run return without any exception at every point of every history in which the wells and boundaries were set with success (boundaries on face cells, before the first step, prescribed pressures different from the weight of the fluid up to the next cell), the model was compiled, the linear solver answers every system and run(check_MB=True) has at least one step; calls of set_boundary and set_all_boundaries in between that fail or succeed do not matter. The one exception possible is RecursionError, and not even that if the limit exceeds the number of wells, the well factors are positive and no computed pressure meets a limit exactly.", "quantifier": "all grids, fluids, initial pressures (also none), histories of calls, solvers and options of the vectorised path", "why_tests_cant": "Tests run a few configurations to the end; that no reachable state makes an index, key or type error needs an invariant over all histories.", "anchors": ["reservoirflow/solutions/numerical/fdm.py:solve,run,__solve,init_matrices_vectorized,get_matrices_vect,__update_wells,__update_boundaries,check_MB", "reservoirflow/models/black_oil.py:set_well,set_boundaries"]}
{"id": "C95", "title": "Valid wells and boundaries are accepted", "statement": "After every such history set_well accepts every interior cell with any rate, bottom hole pressure, radius and skin (a radius given now or before), set_boundaries every dictionary of rate, pressure or gradient conditions on boundary cells (gradients on cells of one face), and set_all_boundaries every rate and pressure.", "quantifier": "all grids, fluids, histories of calls, cells and values", "why_tests_cant": "Tests set wells on grids along x or in the plane only; the equivalent radius has no case for grids without flow along x.", "anchors": ["reservoirflow/models/black_oil.py:set_well,set_boundary,set_boundaries,set_all_boundaries,get_well_G"]}
{"id": "C96", "title": "Controls changed between steps hold from the next step on", "statement": "In every history of steps of the vectorised path with changes between them (set_well: new wells, new rates, new limits, a rate given up for a pressure; set_boundaries: new rates and gradients, new boundaries with a rate or gradient), the next step appends one row of pressures and one of rates; its rates are those of the controls now in force (rate wells their rate, pressure wells factor times drawdown, boundaries by their condition, 0 elsewhere), they sum to what the cells take up, and on level grids that are not 3D the flow equation of each cell holds. After set_well(id, q=...) the rate recorded for the cell in the next step is q.", "quantifier": "all grids, fluids, histories of steps and changes, exact solvers", "why_tests_cant": "A run with changing controls is a sequence of arbitrary length; cached matrix entries, flags and boundary terms survive from step to step and must be right for every order of changes.", "anchors": ["reservoirflow/models/black_oil.py:set_well,set_boundaries", "reservoirflow/solutions/numerical/fdm.py:solve,__update_wells,__update_boundaries"]}
{"id": "C97", "title": "Setting controls leaves the recorded history alone", "statement": "set_well and set_boundaries called between steps do not change the pressures and rates recorded for the steps already made.", "quantifier": "all models, solutions, wells and boundary conditions", "why_tests_cant": "The recorded rows are shared between model and solution; tests set all controls before the first step.", "anchors": ["reservoirflow/models/black_oil.py:set_well,set_boundary,set_boundaries,__set_rate,__set_pressure"]}
{"id": "C98", "title": "Units and scaling in the labels only", "statement": "get_df(units=True) gives the frame of units=False with other column names and nothing else changed: every column of times, rates and pressures gets the unit of its quantity in the unit system, or [scaled] if scale=True and the quantity has a scaler, dates [d.m.y], the others nothing; if one raises the other raises the same. With units=False and scale=False the frame does not depend on the scalers.", "quantifier": "all models, solutions, columns, unit tables with a time, rate and pressure unit, settings of the scalers and histories of reading", "why_tests_cant": "The labels depend on five flags and on the scalers set at that moment; the tests never ask for units.", "anchors": ["reservoirflow/models/black_oil.py:get_df,get_cells_rate,get_cells_pressure,get_wells_rate,get_wells_pressure,get_time_vector"]}
{"id": "C99", "title": "Scaled data frames are the plain ones, mapped number by number", "statement": "get_df(scale=True) has the rows and columns of the plain frame; every time, coordinate, rate and pressure is mapped linearly from the range of all recorded values of its quantity to the range set by set_scalers; dates, ids, steps, missing values and quantities without scaler are unchanged. The range does not depend on the columns asked for.", "quantifier": "all grids, fluids, histories of calls, settings of the scalers, lists of columns, boundary and melt", "why_tests_cant": "The scaler is refitted on every read, from an array with dropped columns and rows; the tests read no scaled frames of runs with wells and boundaries.", "anchors": ["reservoirflow/models/black_oil.py:get_df,update_scalers", "reservoirflow/scalers/minmax.py:fit,transform"]}
{"id": "C100", "title": "Scaled times and centres", "statement": "After n > 0 steps the scaled time of step t is a + (b-a) t/n for the range [a, b] set for times. get_centers(scale=True) maps each coordinate from the range of all cell centres, boundary cells included, also if only interior cells are asked for. get_domain gives the same times and centres as the two calls on their own.", "quantifier": "all grids, numbers of steps, time steps, ranges", "why_tests_cant": "Holds for every number of steps and grid.", "anchors": ["reservoirflow/models/black_oil.py:get_time,get_centers,get_domain,update_scalers"]}
{"id": "C101", "title": "Reading scaled data has no effect on later reads", "statement": "Between two reads of scaled or plain times, centres, domains or frames with the same model, solution and settings, any other reads and refits, also of other states of the model, change no result.", "quantifier": "all models, solutions, settings and sequences of reading calls", "why_tests_cant": "The fitted ranges are stored in the model's scalers and overwritten by every read; independence of the order is a statement about all sequences.", "anchors": ["reservoirflow/models/black_oil.py:update_scalers,get_time,get_centers,get_domain,get_df"]}
{"id": "C102", "title": "Scaled values lie in the range set for them", "statement": "All scaled pressures and rates in a frame lie between the ends of the range set for their quantity, and both ends occur.", "quantifier": "all grids, wells, histories of calls and ranges", "why_tests_cant": "Wells and cells without flow share the scaler of the cells but not its fit; the tests scale no frames with wells.", "anchors": ["reservoirflow/models/black_oil.py:get_df,update_scalers"]}
{"id": "C103", "title": "drop_zero leaves out columns of zeros only", "statement": "With drop_zero=True exactly the columns that are zero at all steps are left out, also of scaled frames.", "quantifier": "all models, solutions, columns and scalers", "why_tests_cant": "Depends on whether columns are dropped before or after scaling.", "anchors": ["reservoirflow/models/black_oil.py:get_df"]}
{"id": "C104", "title": "More withdrawal, lower pressures", "statement": "Take two simulations of one reservoir, set up and solved by the same path step by step, with wells that keep their modes. If every control of the first draws at least as much as that of the second (smaller rates, bottom-hole and boundary pressures at least c lower) and the initial pressure of the first is at least c lower (compressible), or some pressure is held (incompressible), then in every step every cell of the first has a pressure at least c below that of the second. The same holds of a single step after any two histories in which controls were changed.", "quantifier": "all grids, properties, controls, constants c, exact solvers and numbers of steps", "why_tests_cant": "Relates two whole simulations; the sign of every coefficient of the assembled system matters.", "anchors": ["reservoirflow/models/black_oil.py:set_well", "reservoirflow/models/black_oil.py:set_boundaries", "reservoirflow/solutions/numerical/fdm.py:solve", "reservoirflow/solutions/numerical/fdm.py:__get_matrices_vect", "reservoirflow/solutions/numerical/fdm.py:get_matrices_symb"]}
{"id": "C105", "title": "The initial pressure is forgotten or carried along", "statement": "Under the same controls the pressures of two simulations of a compressible reservoir never differ by more than their initial pressures; if no control is a pressure they always differ by exactly that; without compressibility and with a pressure held somewhere, the initial pressure does not matter at all from the first step on.", "quantifier": "all grids, properties, controls, initial pressures and numbers of steps", "why_tests_cant": "A statement about pairs of simulations of any length.", "anchors": ["reservoirflow/models/black_oil.py:__init__", "reservoirflow/solutions/numerical/fdm.py:solve", "reservoirflow/solutions/numerical/fdm.py:run"]}
{"id": "C106", "title": "A further well lowers or raises pressures everywhere", "statement": "One more producing well, or a well set to produce more, leaves no cell at a higher pressure in any step; one more injecting well, or a well set to inject more, leaves none at a lower one.", "quantifier": "all grids, properties, other controls, cells and rates of the well, numbers of steps", "why_tests_cant": "Compares pairs of simulations in all cells and steps.", "anchors": ["reservoirflow/models/black_oil.py:set_well", "reservoirflow/solutions/numerical/fdm.py:solve"]}
{"id": "C107", "title": "Pressures stay between those that drive them", "statement": "In a reservoir at one height, if wells and boundaries only let fluid out or are held at a pressure of at most M, and the initial pressure is at most M, no pressure ever exceeds M; if they only let fluid in or are held at a pressure of at least M, and the initial pressure is at least M, none ever falls below M. Without compressibility, with a pressure held somewhere, the initial pressure does not count.", "quantifier": "all flat grids, properties, controls, bounds and numbers of steps", "why_tests_cant": "A maximum principle: a bound for all cells and steps at once.", "anchors": ["reservoirflow/solutions/numerical/fdm.py:solve", "reservoirflow/solutions/numerical/fdm.py:run", "reservoirflow/solutions/numerical/fdm.py:__get_matrices_vect"]}
{"id": "C108", "title": "Changes die away", "statement": "In a compressible reservoir under controls that stay, if no cell's pressure changes by more than d in the first step, none changes by more than d in any later step. Without compressibility, with a pressure held somewhere, every step after the first gives the same pressures again.", "quantifier": "all grids, properties, controls, d and numbers of steps", "why_tests_cant": "A bound on all later steps from the first one.", "anchors": ["reservoirflow/solutions/numerical/fdm.py:solve", "reservoirflow/solutions/numerical/fdm.py:run", "reservoirflow/solutions/numerical/fdm.py:__get_matrices_vect"]}
{"id": "C109", "title": "Drawdown and buildup are monotone", "statement": "In a flat compressible reservoir where wells only produce or are held at a pressure of at most the initial one, and boundaries only let fluid out or are at a pressure of at most the initial one, no cell's pressure ever rises from one step to the next. If they only inject, let in, or are held at a pressure of at least the initial one, none ever falls.", "quantifier": "all flat grids, properties, controls and numbers of steps", "why_tests_cant": "Monotone in time, for every cell and step.", "anchors": ["reservoirflow/solutions/numerical/fdm.py:solve", "reservoirflow/solutions/numerical/fdm.py:run", "reservoirflow/solutions/numerical/fdm.py:__get_matrices_vect"]}
{"id": "C110", "title": "Effects superpose", "statement": "Four simulations of one reservoir, step by step by the same path: if every well rate, well pressure, boundary rate, boundary pressure and the initial pressure of the fourth are those of the first plus a times their change to the second plus b times their change to the third, so is every pressure in every step. In particular the pressure changes two wells cause together are the sums of those each causes alone, and the change one well causes is proportional to its rate. Without compressibility, with a pressure held somewhere, the initial pressures do not count.", "quantifier": "all grids, properties, controls, parts a and b and numbers of steps", "why_tests_cant": "A relation between four runs for all controls, the basis of well-test superposition.", "anchors": ["reservoirflow/solutions/numerical/fdm.py:solve", "reservoirflow/solutions/numerical/fdm.py:run", "reservoirflow/solutions/numerical/fdm.py:__get_matrices_vect", "reservoirflow/models/black_oil.py:set_well"]}
{"id": "C111", "title": "A run is its steps", "statement": "A run of a + b steps does exactly what a run of a steps followed by a run of b steps does. A run of n steps succeeds just when n calls of solve with the same options succeed, and leaves the same model and solution but for the counter nsteps, which run advances by n and solve does not. In any successful sequence of calls every run can be replaced by that many calls of solve.", "quantifier": "all states, grids, wells, boundaries, solvers, options and numbers of steps, all sequences of calls", "why_tests_cant": "Whatever the run loop carries from step to step must be in the object; tests compare only a few splits.", "anchors": ["reservoirflow/solutions/numerical/fdm.py:run", "reservoirflow/solutions/numerical/fdm.py:solve"]}
{"id": "C112", "title": "The cache of the boundary terms is not seen", "statement": "The solution caches the term of a boundary in a cell's equation by cell, boundary, transmissibility and pressure, not by the boundary condition. Whatever is called in whatever order, every call returns or raises and leaves what it would without that cache.", "quantifier": "all models, all sequences of calls", "why_tests_cant": "Whether a cached term is still right depends on every call between the two requests.", "anchors": ["reservoirflow/solutions/numerical/fdm.py:__calc_b_term", "reservoirflow/models/black_oil.py:set_boundaries", "reservoirflow/solutions/numerical/fdm.py:solve"]}
{"id": "C113", "title": "calc_solution of the analytical solution", "statement": "D1P1.calc_solution() changes neither solution nor model and returns the pressures that run would store for the steps done so far, with the time and the place each is for. clean=True only limits the values to the range of the recorded pressures. scale=True maps the pressures from that range to output_range and times and places by the model's scalers, and changes nothing else.", "quantifier": "all one-dimensional grids, properties, numbers of terms and steps, recorded pressures, output ranges and scalers", "why_tests_cant": "The formula is written twice in the code (run and calc_solution); that the copies agree is a statement about all inputs.", "anchors": ["reservoirflow/solutions/analytical/d1p1.py:calc_solution", "reservoirflow/solutions/analytical/d1p1.py:run", "reservoirflow/models/black_oil.py:get_domain"]}
{"id": "C114", "title": "The kept equations of cells are those of the present model", "statement": "The symbolic assembly writes the equation of a cell down once (model.cells_terms) and uses it again in later steps. Whatever is called in whatever order, every call returns or raises and leaves what it would if the kept equations were thrown away before it.", "quantifier": "all models, all sequences of calls", "why_tests_cant": "Whether a kept equation is still right depends on every call since it was written down.", "anchors": ["reservoirflow/solutions/numerical/fdm.py:get_cell_eq", "reservoirflow/models/black_oil.py:set_well", "reservoirflow/models/black_oil.py:set_boundaries", "reservoirflow/solutions/numerical/fdm.py:solve"]}
{"id": "C115", "title": "Reciprocity of wells", "statement": "Of two wells of constant rate, each alone in the same reservoir: what the second does to the pressure of the first's cell, for each unit of its rate, is in every step what the first does to the pressure of the second's cell, for each unit of its. The same for any two sets of rates, at wells or boundaries, weighed against each other.", "quantifier": "all reservoirs, wells, rates and numbers of steps, compressible from one initial pressure or incompressible", "why_tests_cant": "It compares three simulations, cell by cell and step by step, for every pair of cells and every geometry.", "anchors": ["reservoirflow/solutions/numerical/fdm.py:__init_matrix_vectorized", "reservoirflow/solutions/numerical/fdm.py:get_cell_eq", "reservoirflow/solutions/numerical/fdm.py:solve", "reservoirflow/models/black_oil.py:get_cells_trans", "reservoirflow/models/black_oil.py:set_well"]}
{"id": "C116", "title": "The order of the set-up does not matter", "statement": "Two models of one reservoir with the same wells (the calls of each cell in the same order) and the same boundary conditions, set in whatever order, boundaries before or after or between the wells, have the same pressures in every step.", "quantifier": "all reservoirs, wells, boundary conditions, all orders, all numbers of steps", "why_tests_cant": "The number of orders grows with the factorial of the number of calls.", "anchors": ["reservoirflow/models/black_oil.py:set_well", "reservoirflow/models/black_oil.py:set_boundaries", "reservoirflow/models/black_oil.py:set_boundary", "reservoirflow/solutions/numerical/fdm.py:solve"]}
{"id": "C117", "title": "Models do not share what they are given", "statement": "Several models in one script, to which well objects and boundary dictionaries are passed: whatever is called on which of them in which order, every model is in the state, and its methods return and raise, as if it were the only one and had been given the values the objects had when they were passed.", "quantifier": "all models, all scripts", "why_tests_cant": "Sharing shows only in scripts with several models or cells and a change after the objects have been passed; the number of such scripts is unbounded.", "anchors": ["reservoirflow/models/black_oil.py:set_well", "reservoirflow/models/black_oil.py:set_boundaries", "reservoirflow/wells/single_cell.py:SingleCell"]}
{"id": "C118", "title": "Pressures settle, and where they settle does not depend on how they began", "statement": "In a compressible reservoir where a boundary or a well holds a pressure there is a factor below 1, fixed by the reservoir and its controls, such that under these controls the pressures of two simulations from different initial pressures differ after k steps by at most the k-th power of the factor times the difference at first; the pressures of one simulation stay after k steps within a bound that shrinks by the same factor, and they approach the pressures which the same controls give with an incompressible fluid, whatever the time step and initial pressure of that run.", "quantifier": "all compressible reservoirs, controls with a pressure held, initial pressures, numbers of steps", "why_tests_cant": "A statement about the limit of arbitrarily many steps, with one factor for all runs: a finite run can only be consistent with it.", "anchors": ["reservoirflow/solutions/numerical/fdm.py:solve,run", "reservoirflow/models/black_oil.py:set_boundaries,set_well,__calc_RHS"]}
{"id": "C119", "title": "The output format changes the container, not the contents", "statement": "get_cells_i, get_cells_id, get_cells_coords, get_cells_icoords, get_boundaries, get_cell_neighbors, get_cell_boundaries and get_prop return, for the formats list, tuple and array, the same elements in the same order, for set the same elements once each, for dict (neighbours and boundaries of a cell) the same elements by direction; any other format raises ValueError; with fshape=True the format is ignored and the result is the array in the shape of the grid with the same values.", "quantifier": "all grids, cells, formats, with and without boundary cells", "why_tests_cant": "The formats times the dimensions, directions, unify and boundary flags are many, and points are recognised by a shape that ends in 3: a grid with three cells in a row looks like points only in some of the combinations.", "anchors": ["reservoirflow/utils/helpers.py:128-205", "reservoirflow/grids/regular_cartesian.py:514-555", "reservoirflow/grids/regular_cartesian.py:589-710", "reservoirflow/grids/regular_cartesian.py:754-996", "reservoirflow/grids/regular_cartesian.py:1238-1275", "reservoirflow/grids/regular_cartesian.py:2431-2484"]}
{"id": "C120", "title": "Removing and extracting boundaries respects the layout of the data", "statement": "remove_boundaries and extract_boundaries give the same values for data as a flat array and as an array in the shape of the grid, for numbers and for points, whether points is given or left to be worked out; the result has the layout of the argument; arrays with another number of entries raise ValueError; a dictionary of arrays is treated array by array with the same arguments.", "quantifier": "all grids, data, layouts, removal modes", "why_tests_cant": "Whether data are points is guessed from the shape; only a proof over all sizes shows that no shape of scalar data with boundaries ends in 3.", "anchors": ["reservoirflow/grids/regular_cartesian.py:998-1236", "reservoirflow/utils/helpers.py:128-144", "reservoirflow/grids/regular_cartesian.py:310-378"]}
{"id": "C121", "title": "Full names mean the same as short names", "statement": "After allow_synonyms() on a fluid or a well, the full names (viscosity, density, gravity, FVF, rate, skin, radius; set_viscosity, set_properties, ...) can be used in place of the short ones: they read the same values and the methods do the same. A model's allow_synonyms() makes its full names usable.", "quantifier": "for all fluids and wells however constructed, all sequences of calls by either name before and after, successful or raising; for all models", "why_tests_cant": "No test calls allow_synonyms. Whether a name is a second name or a copy only shows after a later change of the property, in any of the ways to change it.", "anchors": ["reservoirflow/fluids/single_phase.py:166-189", "reservoirflow/fluids/fluid.py:70-85", "reservoirflow/wells/single_cell.py:15-56", "reservoirflow/models/black_oil.py:1140-1152"]}
{"id": "C122", "title": "A reservoir turned round behaves like the reservoir", "statement": "If a reservoir is described from the other end of one or more of its axes - cell sizes, heights and rock properties in reverse order, wells and boundary conditions at the cells in the same places - and simulated with the same fluid, time step and initial pressure, every step gives each place the same pressure and the same rate (of wells, and of the boundary cells that hold a pressure). A reservoir with wells and conditions that is its own mirror image has mirror-image pressures and rates in every step.", "quantifier": "all grids, axes turned, fluids, wells, conditions and numbers of steps; compressible on the symbolic path, or with at most two flow directions; incompressible with a pressure held and at most two flow directions", "why_tests_cant": "An error on one side only (a neighbour's id one off, the size of the wrong cell, a term for the left side only) keeps every total right in symmetric tests and shows only for different rock on the two sides; the statement covers every arrangement of the rock.", "anchors": ["reservoirflow/solutions/numerical/fdm.py:62-784", "reservoirflow/models/black_oil.py:269-650", "reservoirflow/grids/regular_cartesian.py:2663-3015"]}
{"id": "C123", "title": "Heights count by their differences, storage by its quotient", "statement": "Take two reservoirs of the same cell sizes and permeabilities, one lying higher than the other by any height, with fluids of the same viscosity, volume factor and gravity. If every interior cell has the same quotient porosity x compressibility / time step (or both models are incompressible), the same controls give the same pressures and rates (of wells and boundary cells) in every step. So doubling compressibility and time step, or halving the porosity and the time step, or moving the datum changes no pressure and no rate.", "quantifier": "all grids, fluids, porosities, compressibilities, time steps, heights, controls, numbers of steps; three flow directions as in C122", "why_tests_cant": "Compressibility of rock and fluid, porosity, time step and heights enter in different files (constructor, model, assembly, scaling); a test fixes them all at once and cannot tell a misplaced factor of the time step from another parameter.", "anchors": ["reservoirflow/models/black_oil.py:109-175", "reservoirflow/models/black_oil.py:258-268", "reservoirflow/models/black_oil.py:621-633", "reservoirflow/solutions/numerical/fdm.py:62-142", "reservoirflow/solutions/numerical/fdm.py:429-593"]}
{"id": "C124", "title": "Threads change nothing but the time", "statement": "Give any calls of a simulation the argument threading=True or threading=False: the outcome of every call and the state afterwards (pressures, rates, kept systems, cached terms) are the same.", "quantifier": "all models, sequences of calls with or without threads, solvers, symbolic and vectorised paths", "why_tests_cant": "Threads only matter when one of them fails; tests run both on a healthy reservoir, where nothing fails, and compare the numbers.", "anchors": ["reservoirflow/solutions/numerical/fdm.py:213-219", "reservoirflow/solutions/numerical/fdm.py:321-427", "reservoirflow/solutions/numerical/fdm.py:690-860"]}
{"id": "C125", "title": "Every accepted boundary condition takes part in the flow", "statement": "If set_boundaries accepts a condition for a cell, the condition has its effect: a rate enters the balance of some interior cell, a pressure drives a flow between the boundary cell and its neighbour; steps do not fail because of it.", "quantifier": "all grids, boundary cells (faces, edges and corners), conditions, solvers and both paths", "why_tests_cant": "Tests put conditions on the ends of one-dimensional grids, where every boundary cell is on a face; edges and corners exist only in two and three dimensions.", "anchors": ["reservoirflow/models/black_oil.py:533-614", "reservoirflow/solutions/numerical/fdm.py:429-500", "reservoirflow/solutions/numerical/fdm.py:671-677", "reservoirflow/grids/regular_cartesian.py:805-1000"]}
{"id": "C126", "title": "Permeability counts by its quotient with viscosity times volume factor", "statement": "Multiply all permeabilities of a reservoir and the product of viscosity and volume factor by the same factor (with it the productivities of the wells, which are proportional to permeability), and keep porosity x compressibility / (volume factor x time step) of every interior cell (or let both models be incompressible). The same rates, bottom-hole pressures and boundary conditions then give the same pressures and rates in every step, also when the second reservoir lies higher than the first.", "quantifier": "all grids, permeabilities that vary from cell to cell and by direction, fluids, factors, heights, controls, numbers of steps; three flow directions as in C122", "why_tests_cant": "Permeability is averaged in the grid, viscosity and volume factor divide in the model, in the wells and in the storage term; a test with numbers of its own cannot tell a volume factor that is missing in one of these places from another parameter.", "anchors": ["reservoirflow/grids/regular_cartesian.py:2775-3010", "reservoirflow/models/black_oil.py:109-175", "reservoirflow/models/black_oil.py:258-268", "reservoirflow/models/black_oil.py:621-633", "reservoirflow/solutions/numerical/fdm.py:62-142", "reservoirflow/solutions/numerical/fdm.py:429-593"]}
{"id": "C127", "title": "Queries about sizes answer the same whatever was asked before", "statement": "Build any number of grids and ask them get_D, get_fdir, get_shape, get_n, get_n_max and get_fshape in any order, with the arguments written by position, by name or left out: every answer is the one a new computation from the grid's sizes gives, and the attributes the queries leave (D, fdir, shape, n, n_max, fshape) are the answers to the latest of them.", "quantifier": "all sessions: all numbers of grids, sizes, orders of building and asking", "why_tests_cant": "The methods share caches of one or two entries among all grids and pass results to each other through attributes that a cached call does not set; whether an answer is right depends on which calls were evicted, which tests with one fresh grid never reach.", "anchors": ["reservoirflow/grids/regular_cartesian.py:169-378", "reservoirflow/utils/helpers.py:14-23"]}
{"id": "C128", "title": "A grid's properties are arrays of their own and their full names follow them", "statement": "Permeabilities, porosity and heights of a grid never share an array: whatever was called before, setting one of them in one cell or in all changes no other; grid.k and grid.permeability always hold the current permeabilities; an array taken from the grid is changed by no call for all cells. After allow_synonyms the names porosity, permeability_x (y, z) and tops give what phi, kx (ky, kz) and z give.", "quantifier": "all grids, all sequences of set_props, set_prop, set_comp and allow_synonyms, for all cells or one, successful or not", "why_tests_cant": "Whether two names are one array or two shows only after a change in place of one cell, and then only in the other name; tests set properties once and read them by the short name.", "anchors": ["reservoirflow/grids/regular_cartesian.py:2260-2426", "reservoirflow/grids/regular_cartesian.py:3016-3047", "reservoirflow/grids/grid.py:62-112"]}
{"id": "C129", "title": "Pictures of a model show its values at the right cells and in all steps", "statement": "A picture or animation of pressures or rates hands to the drawing library, for every step of the simulation in its order, the values of that step at the drawn cells; the colours range from the least to the greatest number shown, and the colour bar marks least, mean and greatest; labels of a grid stand at the centres of the cells they belong to, for every label the documentation offers, and wells at the centres of theirs; with one or two flow directions the flow lies in the plane the camera looks at; the named resolutions have the sizes of their formats.", "quantifier": "all grids, simulations, property names, labels, with and without boundary cells", "why_tests_cant": "Pictures are looked at, not tested; a shift between values and cells, a missing last frame or a lost mark does not raise anything.", "anchors": ["reservoirflow/utils/pyvista.py:153-199", "reservoirflow/utils/pyvista.py:236-266", "reservoirflow/utils/pyvista.py:364-418", "reservoirflow/utils/pyvista.py:504-578", "reservoirflow/utils/pyvista.py:799-811", "reservoirflow/utils/pyvista.py:900-1239"]}
