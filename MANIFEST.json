{
 "claims": [
  {
   "property": "C01",
   "status": "proved",
   "theorems": [
    "C01_range_history",
    "C01_range_history_total",
    "C01_range_volume",
    "C01_constructors",
    "C01_dims",
    "C01_no_dims"
   ],
   "note": "Every history of mutating calls: described effect, or undefined behaviour exactly when an int result is not representable or an index is out of range."
  },
  {
   "property": "C02",
   "status": "proved",
   "theorems": [
    "C02_includes_iff_cells",
    "C02_includes_refl",
    "C02_includes_trans",
    "C02_includes_antisym",
    "C02_includes_dims"
   ],
   "note": ""
  },
  {
   "property": "C03",
   "status": "proved",
   "theorems": [
    "C03_equality",
    "C03_inequality",
    "C03_shift",
    "C03_shift_back",
    "C03_expand"
   ],
   "note": ""
  },
  {
   "property": "C04",
   "status": "partial",
   "theorems": [
    "C04_traversal_partial",
    "C04_cells_each_once",
    "C04_not_included",
    "C04_default",
    "C04_empty_sub_range_refuted"
   ],
   "note": "Proved for every non-empty included sub range and for not included ones; refuted for included sub ranges without cells: the loop never ends normally."
  },
  {
   "property": "C05",
   "status": "proved",
   "theorems": [
    "C05_linear_index",
    "C05_every_cell_reached",
    "C05_linear_index_walk",
    "C05_injective",
    "C05_whole_range"
   ],
   "note": ""
  },
  {
   "property": "C06",
   "status": "proved",
   "theorems": [
    "C06_final_linear_index",
    "C06_final_bounds"
   ],
   "note": ""
  },
  {
   "property": "C07",
   "status": "partial",
   "theorems": [
    "C07_self_assignment_refuted",
    "C07_assignment_partial"
   ],
   "note": "Refuted: self assignment reads invalidated pointers for every range with a dimension. Assignment between distinct objects is proved."
  },
  {
   "property": "C08",
   "status": "proved",
   "theorems": [
    "C08_construction_defined",
    "C08_construction_overflow",
    "C08_no_overflow"
   ],
   "note": ""
  },
  {
   "property": "C09",
   "status": "proved",
   "theorems": [
    "C09_writes",
    "C09_read_total",
    "C09_read_indexer",
    "C09_construct"
   ],
   "note": ""
  },
  {
   "property": "C10",
   "status": "partial",
   "theorems": [
    "C10_fill_partial",
    "C10_fill_outside_throws",
    "C10_fill_all",
    "C10_fill_empty_refuted"
   ],
   "note": "Proved for non-empty regions, not included regions and whole fill; refuted for included regions without cells (the call never returns normally)."
  },
  {
   "property": "C11",
   "status": "partial",
   "theorems": [
    "C11_pull_partial",
    "C11_pull_self_partial",
    "C11_pull_mismatch_throws",
    "C11_outside_rejected_refuted"
   ],
   "note": "Copy semantics proved for all included non-empty regions; the claim that regions outside a container are rejected is refuted."
  },
  {
   "property": "C12",
   "status": "partial",
   "theorems": [
    "C12_whole_pull_refuted",
    "C12_whole_pull_same_box_partial"
   ],
   "note": "Refuted for containers of equal volume with different origins; proved for containers over the same box."
  },
  {
   "property": "C13",
   "status": "proved",
   "theorems": [
    "C13_swap",
    "C13_swap_mismatch_throws"
   ],
   "note": ""
  },
  {
   "property": "C14",
   "status": "partial",
   "theorems": [
    "C14_copy_constructor_refuted",
    "C14_chunk_assign",
    "C14_extended_assign",
    "C14_chunk_copy_refuted",
    "C14_chunk_self_assign_refuted"
   ],
   "note": "Assignment of chunks and extended chunks is proved; refuted for copy constructors, which lose all elements, and for self assignment, which reads invalidated pointers."
  },
  {
   "property": "C15",
   "status": "partial",
   "theorems": [
    "C15_cells_covered_once_partial",
    "C15_parts_valid_partial",
    "C15_parts_valid_refuted",
    "C15_cells_covered_once_refuted"
   ],
   "note": "Cover-exactly-once proved for lengths and counts below 2^24 (float rounding loses cells above, refuted); validity of the sub ranges and the volume sum proved when every part gets a cell in every dimension, refuted otherwise."
  },
  {
   "property": "C16",
   "status": "proved",
   "theorems": [
    "C16_resize",
    "C16_fresh",
    "C16_strips",
    "C16_strip_cells"
   ],
   "note": ""
  },
  {
   "property": "C17",
   "status": "partial",
   "theorems": [
    "C17_copy_to_partial",
    "C17_copy_to_self_partial",
    "C17_copy_to_mismatch_throws",
    "C17_outside_rejected_refuted"
   ],
   "note": "Copy semantics proved for all included non-empty regions, also within one chunk; rejection of outside regions is refuted."
  },
  {
   "property": "C18",
   "status": "partial",
   "theorems": [
    "C18_periodic_partial",
    "C18_sources",
    "C18_narrow_mesh_refuted",
    "C18_no_ghosts_refuted"
   ],
   "note": "Proved for all meshes at least as wide as the ghost layer, any dimension list. Refuted for narrower meshes (old ghost content is copied) and for chunks without ghost layers (out-of-bounds access)."
  },
  {
   "property": "C19",
   "status": "proved",
   "theorems": [
    "C19_copy_out"
   ],
   "note": ""
  },
  {
   "property": "C20",
   "status": "proved",
   "theorems": [
    "C20_no_slip",
    "C20_few_components"
   ],
   "note": "Needs the components 1..3 to exist. With fewer than four components nothing is reversed and nothing is reported (C20_few_components)."
  },
  {
   "property": "C21",
   "status": "partial",
   "theorems": [
    "C21_free_slip_partial",
    "C21_tangential_refuted"
   ],
   "note": "Refuted: tangential momentum is reversed as well. Proved for the normal and the non-momentum components and the frame."
  },
  {
   "property": "C22",
   "status": "partial",
   "theorems": [
    "C22_conducting_wall_partial",
    "C22_magnetic_refuted"
   ],
   "note": "Refuted: the x component of the magnetic field is reversed as well. Proved for the other components and the frame."
  },
  {
   "property": "C23",
   "status": "proved",
   "theorems": [
    "C23_solve",
    "C23_interior",
    "C23_bad_dimension"
   ],
   "note": ""
  },
  {
   "property": "C24",
   "status": "proved",
   "theorems": [
    "C24_request",
    "C24_history",
    "C24_add_variable",
    "C24_mismatch"
   ],
   "note": ""
  },
  {
   "property": "C25",
   "status": "partial",
   "theorems": [
    "C25_present",
    "C25_missing_input_refuted"
   ],
   "note": "Refuted: the exception is constructed but not thrown, end() is dereferenced."
  },
  {
   "property": "C26",
   "status": "partial",
   "theorems": [
    "C26_order_partial",
    "C26_equality",
    "C26_mismatch",
    "C26_order_refuted"
   ],
   "note": "Proved for bases with one name; refuted for bases of different names."
  },
  {
   "property": "C27",
   "status": "proved",
   "theorems": [
    "C27_clones_distinct",
    "C27_clones_defined",
    "C27_clone_shape",
    "C27_user_name_refuted"
   ],
   "note": "Clones never collide with each other. C27_user_name_refuted shows that a clone can collide with a name the user chose, which the property does not exclude."
  },
  {
   "property": "C28",
   "status": "partial",
   "theorems": [
    "C28_swap",
    "C28_swap_fields",
    "C28_swap_twice",
    "C28_odd",
    "C28_incompatible_refuted"
   ],
   "note": "Proved for pairs with equal component boxes and for odd lists; the rejection of incompatible pairs is refuted."
  },
  {
   "property": "C29",
   "status": "proved",
   "theorems": [
    "C29_fill"
   ],
   "note": ""
  },
  {
   "property": "C35",
   "status": "proved",
   "theorems": [
    "C35_stage",
    "C35_step",
    "C35_tableau",
    "C35_linear",
    "C35_scalar",
    "C35_zero"
   ],
   "note": "Stages for every arithmetic; the whole step in exact arithmetic. Needs 64 byte aligned storage (C55)."
  },
  {
   "property": "C36",
   "status": "proved",
   "theorems": [
    "C36_convex",
    "C36_bounds"
   ],
   "note": "Exact arithmetic; needs aligned storage (C55)."
  },
  {
   "property": "C37",
   "status": "proved",
   "theorems": [
    "C37_rk1_inputs",
    "C37_rk1_outputs",
    "C37_ssprk3_inputs",
    "C37_ssprk3_outputs",
    "C37_rk1_step"
   ],
   "note": ""
  },
  {
   "property": "C38",
   "status": "proved",
   "theorems": [
    "C38_stage_0",
    "C38_stage_1",
    "C38_stage_2",
    "C38_euler",
    "C38_maxwell"
   ],
   "note": "Every interleaving of the single memory operations of the iterations of rk1 (a serial loop in the code), ssprk3, euler and maxwell. Euler on grids of up to four dimensions; on five and more the code faults (C40)."
  },
  {
   "property": "C40",
   "status": "partial",
   "theorems": [
    "C38_euler",
    "C40_solve",
    "C40_five_dimensions_refuted"
   ],
   "note": "In bounds on grids of one to four dimensions, whatever the schedule. On five or more dimensions the state is read out of bounds: refuted."
  },
  {
   "property": "C41",
   "status": "proved",
   "theorems": [
    "C41_balance",
    "C41_periodic"
   ],
   "note": "Exact arithmetic; every box of interior cells, and the whole mesh after the periodic boundary condition."
  },
  {
   "property": "C42",
   "status": "proved",
   "theorems": [
    "C42_uniform"
   ],
   "note": "Exact arithmetic; positivity of the state is not needed."
  },
  {
   "property": "C43",
   "status": "partial",
   "theorems": [
    "C43_consistent",
    "C43_left",
    "C43_right",
    "C43_average",
    "C43_colliding",
    "C43_exactly_one_refuted",
    "C43_upwind_double_refuted"
   ],
   "note": "Consistent and upwind in exact arithmetic. For colliding supersonic streams the sum of both fluxes is used (refuted), and in doubles equal speeds give not-a-number (refuted)."
  },
  {
   "property": "C44",
   "status": "partial",
   "theorems": [
    "C44_increasing",
    "C44_decreasing_partial",
    "C44_overshoot",
    "C44_between_refuted",
    "C44_flat",
    "C44_turned",
    "C44_mirrored_partial",
    "C44_mirrored_refuted",
    "C44_not_a_number_refuted"
   ],
   "note": "True up to a few times the tolerance 1e-12 the code adds to the slope; exactly true for increasing data. Exact statements for decreasing data and mirror images refuted."
  },
  {
   "property": "C45",
   "status": "proved",
   "theorems": [
    "C45_euler",
    "C45_maxwell"
   ],
   "note": "Any arithmetic, bit for bit in every interior cell."
  },
  {
   "property": "C46",
   "status": "proved",
   "theorems": [
    "C38_maxwell",
    "C46_solve",
    "C46_balance",
    "C46_periodic",
    "C46_consistent",
    "C46_rusanov",
    "C46_uniform"
   ],
   "note": "Bounds for any arithmetic; the rest in exact arithmetic."
  },
  {
   "property": "C55",
   "status": "partial",
   "theorems": [
    "C55_alignment_refuted",
    "C55_stage_tag_refuted",
    "C55_alias_refuted",
    "C55_shapes_refuted"
   ],
   "note": "Refuted: none of these calls is reported; all but the unknown tag are undefined."
  },
  {
   "property": "C48",
   "status": "proved",
   "theorems": [
    "C48_solve",
    "C48_default",
    "C48_force",
    "C48_no_magnetic_work",
    "C48_counts",
    "C48_alias_refuted",
    "C48_shapes_refuted"
   ],
   "note": "C48_solve: for every grid, state and arithmetic the solver adds exactly the rates of lorentz_rate to the interior cells and changes nothing else, provided the right-hand side is a different variable with the fluid's shape. C48_force: over the reals these rates are com*(rho E + p x B) and com*(p.E). C48_no_magnetic_work: p.force = rho*power. The refuted theorems record that nothing checks the shape or the aliasing of the right-hand side."
  },
  {
   "property": "C49",
   "status": "proved",
   "theorems": [
    "C49_solve",
    "C49_current",
    "C49_energy",
    "C49_counts",
    "C49_setup_counts"
   ],
   "note": "Any number of species. C49_solve: what the solver adds, in any arithmetic. C49_current: over the reals this is -sum q/(m eps0) p. C49_energy: after the Lorentz solver for each species and the current solver, eps0 E.dE + sum of energies is 0 in every interior cell."
  },
  {
   "property": "C39",
   "status": "partial",
   "theorems": [
    "C39_refuted",
    "C39_lost_update_refuted"
   ],
   "note": "Refuted: the loop of every dimension of every chunk has a data race, for either sign of the velocity and any contents; a complete schedule with a lost update is given."
  },
  {
   "property": "C50",
   "status": "proved",
   "theorems": [
    "C50_stage_0",
    "C50_stage_1",
    "C50_total",
    "C50_constant",
    "C50_constant_rounding_refuted",
    "C50_balance",
    "C50_periodic",
    "C50_in_bounds",
    "C50_counts",
    "C50_other_stage"
   ],
   "note": "Accesses in bounds for every interleaving; values for the sequential order in any arithmetic; conservation and constants in exact arithmetic. In doubles constant data can change in the last digit (refuted theorem)."
  },
  {
   "property": "C56",
   "status": "partial",
   "theorems": [
    "C56_positivity_refuted"
   ],
   "note": "Refuted: next to equal neighbours the flux is unlimited; the densities 0, 16, 0, 0 become 0, 12, 5, -1 at Courant number 1/4."
  },
  {
   "property": "C47",
   "status": "partial",
   "theorems": [
    "C47_normal_flux",
    "C47_one_dimension",
    "C47_run",
    "C47_run_double_refuted"
   ],
   "note": "Zero normal flux for any arithmetic; any number of steps of the pulse program leaves Ex and Bx as they are in exact arithmetic. In doubles the integrator itself rounds: Bx = 0.1 is another double after one step (refuted)."
  },
  {
   "property": "C51",
   "status": "proved",
   "theorems": [
    "C51_run"
   ],
   "note": "Exact arithmetic, any number of steps, every grid with at least two cells in each dimension."
  },
  {
   "property": "C57",
   "status": "proved",
   "theorems": [
    "C57_pulse",
    "C57_sod",
    "C57_gem",
    "C57_brio_wu",
    "C57_euler_flux",
    "C57_maxwell_flux",
    "C57_pulse_physical",
    "C57_sod_physical",
    "C57_gem_physical",
    "C57_brio_wu_physical"
   ],
   "note": "The first four are for every arithmetic and take the flux functions of the code as they are; the physical ones are for exact arithmetic and write the fluxes down from the equations, Sod on up to three dimensions; needs aligned storage and fitting shapes; Sod on up to four dimensions. The programs are modelled from set_time on; initial conditions and output are separate properties."
  },
  {
   "property": "C58",
   "status": "proved",
   "theorems": [
    "C58_sod"
   ],
   "note": "Exact arithmetic with the standard library convention for division by zero."
  },
  {
   "property": "C59",
   "status": "proved",
   "theorems": [
    "C59_gem",
    "C59_brio_wu"
   ],
   "note": "Exact arithmetic with the standard library convention for division by zero."
  },
  {
   "property": "C60",
   "status": "partial",
   "theorems": [
    "C60_advect",
    "C60_as_written_refuted"
   ],
   "note": "Proved in the sequential order with every dimension periodic. The example never sets up its boundary solvers: as written the box gains mass (refuted). The loops race (C39)."
  },
  {
   "property": "C33",
   "status": "partial",
   "theorems": [
    "C33_gaussian_partial",
    "C33_magnetic_pulse_partial",
    "C33_radial_partial",
    "C33_real_partial",
    "C33_refuted"
   ],
   "note": "Proved on three-dimensional grids, in any arithmetic and in closed form over the reals. On one- and two-dimensional grids, as in the examples, unwritten coordinates are read (refuted for every such grid and all parameters)."
  },
  {
   "property": "C34",
   "status": "partial",
   "theorems": [
    "C34_partial",
    "C34_refuted"
   ],
   "note": "The last term of the squared distance is (x2-c2)(x1-c2). Right only where x2 = c2 or x1 = x2; refuted by a cell at distance sqrt 200 that gets the inner state for radius 1."
  },
  {
   "property": "C54",
   "status": "partial",
   "theorems": [
    "C54_shock_tube",
    "C54_pressure",
    "C54_ghosts_kept_refuted",
    "C54_four_dimensions_refuted",
    "C54_few_components_refuted",
    "C54_brio_wu",
    "C54_brio_wu_field_refuted"
   ],
   "note": "States and pressures proved on up to three dimensions. Refuted parts: ghost cells are overwritten with zero, four dimensions write out of bounds, fewer than five components write into the next cell, and the plasma version stores By/(gamma-1) instead of By."
  },
  {
   "property": "C61",
   "status": "partial",
   "theorems": [
    "C61_wave",
    "C61_upwind",
    "C61_direction_refuted",
    "C61_silent_refuted"
   ],
   "note": "The wave itself is proved. Refuted: a direction the grid does not have reads an unwritten coordinate, other numbers silently give zero fields."
  },
  {
   "property": "C62",
   "status": "partial",
   "theorems": [
    "C62_gem",
    "C62_ampere",
    "C62_balance",
    "C62_divergence",
    "C62_wall_refuted"
   ],
   "note": "Equilibrium and divergence proved in exact arithmetic. Refuted: pi is mistyped as 3.14159263, so the perturbation does not vanish at the walls."
  },
  {
   "property": "C63",
   "status": "partial",
   "theorems": [
    "C63_sod",
    "C63_sod_totals",
    "C63_wave",
    "C63_brio_wu",
    "C63_harris",
    "C63_harris_totals",
    "C63_gem",
    "C63_gem_totals",
    "C63_gaussian_pulse_refuted",
    "C63_advect_gaussian_refuted"
   ],
   "note": "Proved for sod_shock_tube, wave_1D, two_fluid_brio_wu, harris_current_sheet and gem_challenge. gaussian_pulse and advect_gaussian start with undefined behaviour (refuted)."
  },
  {
   "property": "C30",
   "status": "proved",
   "theorems": [
    "C30_file",
    "C30_values",
    "C30_dimensions",
    "C30_nothing_written",
    "C30_missing",
    "C30_several_chunks",
    "C30_four_dimensions_refuted"
   ],
   "note": "Whole file for grids of one to three dimensions and variables that exist; exceptions for all other requests. Beyond the property: on four or more dimensions no values are written although CELL_DATA announces them, and a missing variable is noticed only after the file has been overwritten."
  },
  {
   "property": "C31",
   "status": "partial",
   "theorems": [
    "C31_geometry_partial",
    "C31_origin_refuted"
   ],
   "note": "Refuted: the origin written is the middle of the domain; positions agree with the centroids only if twice the lower bound is the number of cells. Spacing and dimensions are proved."
  },
  {
   "property": "C32",
   "status": "partial",
   "theorems": [
    "C32_centroids_partial",
    "C32_lower_bound_refuted"
   ],
   "note": "Proved for index ranges that begin at 0. Refuted for all others: the centroid ignores the lower bound."
  },
  {
   "property": "C52",
   "status": "partial",
   "theorems": [
    "C52_message_partial",
    "C52_what_refuted",
    "C52_assign_refuted",
    "C52_assign_appends_refuted",
    "C52_from_std",
    "C52_from_base_refuted"
   ],
   "note": "Refuted: what() returns a pointer into a temporary, assignment reads it and appends instead of replacing. Proved: the message built by the constructors and insertions."
  },
  {
   "property": "C53",
   "status": "partial",
   "theorems": [
    "C53_constructor",
    "C53_symmetric_partial",
    "C53_linear_partial",
    "C53_symmetric_refuted",
    "C53_linear_refuted",
    "C53_exponent_refuted",
    "C53_odd"
   ],
   "note": "Proved for whole widths (even ones for the symmetric bias) and exponents of at least 1 in exact arithmetic; refuted for every other width because the width is stored in an int, and for exponents below 1 in doubles: the widths become infinite, not a number or zero."
  },
  {
   "property": "C64",
   "status": "proved",
   "theorems": [
    "C64_print"
   ],
   "note": "Besides, a requested variable that does not exist is created and printed as zeros."
  },
  {
   "property": "C65",
   "status": "partial",
   "theorems": [
    "C65_assign",
    "C65_same_traversal",
    "C65_self_assignment_refuted"
   ],
   "note": "Proved for distinct objects. Refuted: self assignment reads invalidated pointers for every range with a dimension."
  },
  {
   "property": "C66",
   "status": "partial",
   "theorems": [
    "C66_setup_partial",
    "C66_rejected",
    "C66_rejected_unchanged_refuted",
    "C66_repeated_refuted"
   ],
   "note": "Proved for the first setup and for the exception. Refuted: a rejected call has already changed num_points, and repeated setups pile up nodes and weights."
  },
  {
   "property": "C67",
   "status": "proved",
   "theorems": [
    "C67_full_copy",
    "C67_same_box",
    "C67_mismatch"
   ],
   "note": "For distinct chunks; source and target are separate arrays in the model."
  },
  {
   "property": "C68",
   "status": "partial",
   "theorems": [
    "C68_pulse",
    "C68_sod",
    "C68_plasma",
    "C68_sod_program",
    "C68_wave_program",
    "C68_brio_wu_program",
    "C68_harris_program",
    "C68_gem_program",
    "C68_advect_one_thread",
    "C68_advect_refuted"
   ],
   "note": "Holds for all programs except advect_gaussian, whose loops race from every ready state."
  },
  {
   "property": "C69",
   "status": "partial",
   "theorems": [
    "C69_next",
    "C69_indexer_partial",
    "C69_indexer_refuted",
    "C69_data_partial",
    "C69_data_cell",
    "C69_data_refuted",
    "C69_rectilinear",
    "C69_structured_reports",
    "C69_structured_partial",
    "C69_structured_refuted"
   ],
   "note": "Rectilinear grids are proved. Refuted: the indexer accepts the number of dimensions itself and reads past its arrays; a container accepts a cell outside its range whose offset falls on another cell; structured grids with a lower bound other than 0 accept indices outside their arrays."
  },
  {
   "property": "C70",
   "status": "partial",
   "theorems": [
    "C70_lorentz_serial",
    "C70_lorentz_partial",
    "C70_lorentz_last_refuted",
    "C70_lorentz_race_refuted",
    "C70_current_serial",
    "C70_current_last_refuted",
    "C70_current_race_refuted"
   ],
   "note": "On one thread every interior cell but the last one is right. Refuted: the last interior cell gets nothing, ghost cells between the rows are changed, and with OpenMP the shared pointers race whenever there are two iterations. Nothing calls these kernels."
  },
  {
   "property": "C71",
   "status": "partial",
   "theorems": [
    "C71_upstream_refuted",
    "C71_total_partial",
    "C71_line",
    "C71_direction_refuted"
   ],
   "note": "With positive velocities all accesses are inside the arrays and the total is preserved in exact arithmetic; on a line the values are given in any arithmetic. Refuted: a velocity that is not positive makes the loop read behind the array, for all contents; the strides take the first dimension as the fastest while ranges take the last, so the flow along dimension 0 goes along dimension 1. Nothing calls this function."
  },
  {
   "property": "C72",
   "status": "partial",
   "theorems": [
    "C72_resize_partial",
    "C72_constructor",
    "C72_default",
    "C72_empty_mesh",
    "C72_stale_refuted",
    "C72_empty_refuted"
   ],
   "note": "Layout, constructors and sync are proved. Refuted: the elements keep old values in memory order instead of being zero, and a mesh without cells leaves the old chunk in place. resize is protected and only the constructors call it."
  },
  {
   "property": "C73",
   "status": "partial",
   "theorems": [
    "C73_digits_refuted",
    "C73_file_refuted",
    "C73_seventeen"
   ],
   "note": "Refuted: 16 significant digits do not determine a double; two managers with different values everywhere write the same text. With 17 digits any two valid positive doubles would differ. The text itself depends on the library; the statements hold for every library that rounds to the nearest decimal."
  },
  {
   "property": "C74",
   "status": "partial",
   "theorems": [
    "C74_sod",
    "C74_wave",
    "C74_brio_wu",
    "C74_harris",
    "C74_gem",
    "C74_names",
    "C74_main",
    "C74_main_refuted",
    "C74_gaussian_pulse_refuted",
    "C74_advect_gaussian_refuted"
   ],
   "note": "Proved for sod_shock_tube, wave_1D, two_fluid_brio_wu, harris_current_sheet, gem_challenge and, if all files can be created, for main. Refuted: if a file cannot be created, main reads the message of the exception after it is gone (undefined behaviour); gaussian_pulse and advect_gaussian begin with undefined behaviour and write nothing."
  },
  {
   "property": "C75",
   "status": "proved",
   "theorems": [
    "C75_column",
    "C75_sod",
    "C75_wave",
    "C75_brio_wu",
    "C75_harris",
    "C75_gem",
    "C75_unique"
   ],
   "note": "Exact arithmetic. The reader of columns is part of the specification."
  },
  {
   "property": "C76",
   "status": "proved",
   "theorems": [
    "C76_pulse",
    "C76_sod",
    "C76_gem",
    "C76_sod_rows",
    "C76_wave_planes",
    "C76_sod_flat",
    "C76_gem_flat",
    "C76_sod_line"
   ],
   "note": "Shifts and equal rows in every arithmetic; leaving out a dimension in exact arithmetic. In doubles the last bits differ there (C76_flat_doubles_ex): flux in and out are equal, but adding and subtracting them rounds."
  },
  {
   "property": "C77",
   "status": "proved",
   "theorems": [
    "C77_pulse",
    "C77_sod",
    "C77_gem",
    "C77_brio_wu",
    "C77_sod_quiet",
    "C77_sod_files"
   ],
   "note": "The reach is sharp for one step: in doubles a change 6 cells away has an effect, 7 cells away none (C77_pulse_ex)."
  },
  {
   "property": "C78",
   "status": "partial",
   "theorems": [
    "C78_line_partial",
    "C78_layers",
    "C78_gem",
    "C78_refuted",
    "C78_rate_refuted"
   ],
   "note": "In one dimension the divergence does not change at all, and in up to three dimensions the flux through every layer stays as it is, with the walls of gem_challenge too. Refuted: in two dimensions the fluxes of Rusanov diffuse Bx along y and By along x only, so a field without sources gets sources: in one step of the program in doubles, and in exact arithmetic for every speed of light other than zero."
  },
  {
   "property": "C79",
   "status": "partial",
   "theorems": [
    "C79_sod",
    "C79_pulse_partial",
    "C79_pulse_near",
    "C79_swap_refuted"
   ],
   "note": "Proved for a gas with walls and periodic boundaries and any order of up to three axes, for electric and magnetic fields whose three axes are turned cyclically, and up to the tolerance and growth of C86 (C79_pulse_near) for electric and magnetic fields with up to three axes in any order. Refuted as an exact statement for two axes of electric and magnetic fields exchanged, where the magnetic field changes sign: the reconstruction adds 1e-12 to the slope whichever its sign, so that data of the opposite sign do not give results of the opposite sign."
  },
  {
   "property": "C80",
   "status": "partial",
   "theorems": [
    "C80_sod_partial",
    "C80_gem_partial",
    "C80_brio_wu_partial",
    "C80_near",
    "C80_dip_refuted",
    "C80_speeding_refuted",
    "C80_refuted"
   ],
   "note": "Proved with a lower bound, for sod_shock_tube and both fluids of gem_challenge, two_fluid_brio_wu and harris_current_sheet, if at every stage neighbouring densities are within a factor of nine, above 1e-9, and the waves at the faces stay below the given speed (density only); without any condition on the stages, density and pressure of a gas near a uniform state stay positive for a time given by the largest flux. Refuted without that condition on neighbours: the limiter is not cut off for slopes of opposite sign, so a face next to a local minimum gets a negative density, and density, momentum and energy are reconstructed one by one, so a face of a uniformly accelerated gas gets a negative pressure; in doubles every value is then NaN after one step of 1e-9."
  },
  {
   "property": "C81",
   "status": "partial",
   "theorems": [
    "C81_wall",
    "C81_smooth",
    "C81_maxwell",
    "C81_euler",
    "C81_gem_refuted",
    "C81_harris_refuted"
   ],
   "note": "Proved up to 1.2e-12 at a face and 2.4e-12 divided by the cell width in the right-hand side, which come from the 1e-12 the limiter adds to the slopes. Refuted for gem_challenge, which main runs, and harris_current_sheet: in SI units all their densities are below 2e-14, so the densities at the faces are those of the cells and the scheme is of first order in the density from the start. For the equations of gas dynamics the bound holds where density and pressure are bounded from below and the cells are small enough for the waves at the faces to be ordered."
  },
  {
   "property": "C82",
   "status": "partial",
   "theorems": [
    "C82_euler_flux",
    "C82_maxwell_flux",
    "C82_recon_partial",
    "C82_recon_refuted",
    "C82_sod",
    "C82_pulse",
    "C82_gem",
    "C82_brio_wu",
    "C82_refuted"
   ],
   "note": "Proved for the fluxes in any units and for whole runs of all programs when lengths and times change together (in a plasma with charge to mass ratios and currents that change inversely). Refuted for the unit of mass: the 1e-12 the limiter adds to the slopes is in no unit, so the reconstruction agrees only up to 4e-12 in either unit, and in doubles the same gas with a unit of mass 2^45 times as large ends with 15 percent more mass in its least dense cell."
  },
  {
   "property": "C83",
   "status": "partial",
   "theorems": [
    "C83_sod_partial",
    "C83_sod",
    "C83_gem_partial",
    "C83_gem",
    "C83_brio_wu_partial",
    "C83_brio_wu",
    "C83_refuted"
   ],
   "note": "Proved for gases at rest: for any run at whose stages the densities at the walls between cells are positive (the three _partial theorems), and without this assumption for runs short enough, with densities within a factor of 2.5 of each other. Refuted for gases that move: in doubles, six cells with equal velocity and pressure and densities of about 10^-12 are NaN after two steps, because the 1e-12 of the limiter changes density, momentum and energy differently; with densities of about 1 the gas is carried along."
  },
  {
   "property": "C84",
   "status": "partial",
   "theorems": [
    "C84_brio_wu",
    "C84_smooth",
    "C84_smooth_run_partial",
    "C84_refuted"
   ],
   "note": "Refuted: with electrons and ions at rest, equal pressure and no charge anywhere, but densities that jump, one step in doubles leaves a charge of 0.06 and a field whose divergence is 0, because the fluxes move mass that has no momentum and the current is made of momenta. Proved: by how much the law is missed changes in each step exactly by the weighted mean, over the three stages, of the net inflow of the mass that the fluxes move in excess of the mean momentum (C84_brio_wu); for smooth gases away from the walls that rate is at most a multiple of the width of a cell, and of 1e-12 over it, because of the limiter (C84_smooth), also over a run at whose stages the gases are smooth about the cell (C84_smooth_run_partial; that smoothness lasts is an assumption)."
  },
  {
   "property": "C85",
   "status": "proved",
   "theorems": [
    "C85_brio_wu",
    "C85_bounded",
    "C85_two_fluid_brio_wu",
    "C85_brio_wu_constants",
    "C85_harris_constants",
    "C85_gem_constants",
    "C85_gem",
    "C85_gem_bounded",
    "C85_harris_current_sheet",
    "C85_gem_challenge"
   ],
   "note": "Exact arithmetic. All cells up to six per step away must be uniform at the start, because nothing else is known about the others (C77)."
  },
  {
   "property": "C86",
   "status": "proved",
   "theorems": [
    "C86_pulse",
    "C86_values",
    "C86_jump"
   ],
   "note": "Exact arithmetic. The tolerance cannot be left out: C86_jump gives values as near to each other as you like and values at a wall 2.5e-13 apart."
  },
  {
   "property": "C87",
   "status": "proved",
   "theorems": [
    "C87_pulse"
   ],
   "note": "Exact arithmetic. Not exactly a mirror image, because the reconstruction is not (C44_mirrored_refuted)."
  },
  {
   "property": "C88",
   "status": "proved",
   "theorems": [
    "C88_pulse"
   ],
   "note": "Exact arithmetic. Exactly only for fields large compared to 1e-12 (C82)."
  },
  {
   "property": "C89",
   "status": "proved",
   "theorems": [
    "C89_pulse",
    "C89_sod",
    "C89_literals"
   ],
   "note": "IEEE doubles; C89_literals says that the model gives each decimal literal the nearest double. Sizes of values and fluxes at the stages are hypotheses here; C90 derives them for Maxwell's equations. Walls are covered only in exact arithmetic (C58)."
  },
  {
   "property": "C90",
   "status": "partial",
   "theorems": [
    "C90_pulse",
    "C90_refuted"
   ],
   "note": "Refuted: the limiter adds 1e-12 to a difference and divides by the result, so where a value is by exactly 1e-12 below that of the cell before it (Bz = 1e-12 in one cell of three, 0 in the others) it divides by 0, and Ey and Bz are NaN after one step. Proved: this is the only way. If at the stages no such divisor is 0 all values stay numbers, with an explicit bound on their growth, and the sums stay as in C89."
  },
  {
   "property": "C91",
   "status": "proved",
   "theorems": [
    "C91_forces",
    "C91_program"
   ],
   "note": "Exact arithmetic; balance of the differential equations, not of the scheme."
  },
  {
   "property": "C92",
   "status": "partial",
   "theorems": [
    "C92_pressure",
    "C92_ampere",
    "C92_run",
    "C92_refuted"
   ],
   "note": "The pressures are proved to balance exactly. Refuted for the current: mu0, eps0 and c are given with nine digits and c^2 mu0 eps0 is 1 - 8.7e-10, so the rate of change of Ez is not 0 anywhere; it is proved to be between 8.7e-10 and 8.8e-10 of the current divided by eps0."
  },
  {
   "property": "C93",
   "status": "proved",
   "theorems": [
    "C93_pulse"
   ],
   "note": "That no divisor of the limiter is 0 is part of the statement; the program does not check it and C90 shows what happens otherwise. Euler's equations are not covered: their fluxes are not Lipschitz."
  },
  {
   "property": "C94",
   "status": "partial",
   "theorems": [
    "C94_constructor_first",
    "C94_request_again",
    "C94_entry_first_refuted",
    "C94_same_add",
    "C94_same_output",
    "C94_same_requests",
    "C94_fitting"
   ],
   "note": "Proved if the constructor runs before operator[], as C++17 demands. The build uses C++11, where the compiler may insert the id first: then a null pointer stays in the map and the next request dereferences it (refuted, for every manager and id). As long as no constructor throws the orders agree, which holds for ids of fitting size."
  },
  {
   "property": "C95",
   "status": "proved",
   "theorems": [
    "C95_brio_wu",
    "C95_gem",
    "C95_two_fluid_brio_wu",
    "C95_harris_current_sheet",
    "C95_gem_challenge",
    "C85_brio_wu_constants",
    "C85_harris_constants",
    "C85_gem_constants"
   ],
   "note": "The motion is turned by a skew-symmetric operator in the inner product of the energy; one step of SSP-RK3 is its third-order Taylor polynomial, whose norm is computed exactly. The frequencies enter through bounds oc and op, so no square roots are needed."
  },
  {
   "property": "C96",
   "status": "proved",
   "theorems": [
    "C96_brio_wu",
    "C96_gem",
    "C96_two_fluid_brio_wu",
    "C96_harris_current_sheet",
    "C96_gem_challenge"
   ],
   "note": "The work done on the fluids is the work taken from the field at each stage, so the change in one step is the error of the quadrature of a quadratic form, which is computed exactly and is of fourth order; the energy of motion does not grow (C95), so the changes add up."
  },
  {
   "property": "C97",
   "status": "proved",
   "theorems": [
    "C97_brio_wu",
    "C97_gem",
    "C97_two_fluid_brio_wu",
    "C97_harris_current_sheet",
    "C97_gem_challenge",
    "C97_exists",
    "C97_unique"
   ],
   "note": "One step is the third-order Taylor polynomial of the exact motion. The remainder is bounded by four integrations of the equation along the exact solution, whose energy stays as it is; earlier errors do not grow (C95), so the errors of the steps add up. Exact solutions are given by their derivatives (derivable_pt_lim); by C97_exists (power series) and C97_unique (energy of the difference) there is exactly one for each start. Examples are two beams on circles and plasma oscillations with the constants of two_fluid_brio_wu, with cosine and sine."
  },
  {
   "property": "C98",
   "status": "proved",
   "theorems": [
    "C98_brio_wu",
    "C98_gem",
    "C98_two_fluid_brio_wu",
    "C98_harris_current_sheet",
    "C98_gem_challenge"
   ],
   "note": "The momentum is a linear function of the motion in a fixed magnetic field that vanishes on every rate of change, and one step is a polynomial of the operator that gives these rates (C95)."
  },
  {
   "property": "C99",
   "status": "proved",
   "theorems": [
    "C99_euler",
    "C99_maxwell",
    "C99_brio_wu",
    "C99_vtk_basis",
    "C99_variable_basis"
   ],
   "note": "By cases on the lists; the messages are those of the source, and the possible outcomes under all schedules are exactly the one exception."
  }
 ]
}