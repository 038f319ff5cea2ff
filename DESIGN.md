# Formal model of seamill/quikin in Rocq (Coq 8.16.1)

Source: `/repo/src` (C++), read as text only.  Model and proofs: `rocq/theories/`.

## Method

* Every C++ function in scope is a total, computable Gallina function.  Partial
  behaviour of C++ is an explicit outcome, never assumed away:
  `Ok v` (normal), `Exn msg` (a thrown exception), `UB k` (undefined behaviour
  of kind `k`: vector index out of bounds, signed overflow, dereferenced end
  iterator, read of an uninitialised variable, invalidated pointer, ...),
  `NoFuel` (the loop did not finish in the given number of steps).
  State-changing calls return the state also when they throw
  (`Threw msg state`), so "throws and changes nothing" is expressible.
* `int` is `Z` with a 32-bit range check on each arithmetic result; leaving the
  range is `UB IntOverflow`.
* `double` is an abstract type `F` with an operations record (`Arith F`).
  All data-movement, layout, frame, bounds and schedule theorems are proved for
  every `F` and every operations record, so they hold in particular for IEEE
  doubles.  Numerical identities are proved for the instance `F := R` (exact
  real arithmetic); rounding is outside those statements.
* Loops over an indexer take a fuel argument.  Positive theorems give an
  explicit sufficient fuel; non-termination findings hold for every fuel.
* `std::vector` is `list`; `std::map` is a list of entries searched with the
  code's own `operator<` (comment of `map_find`); files are token lists.
* OpenMP loops are pools of threads (one per iteration) whose memory operations
  interleave arbitrarily.

Files named `*Spec.v` hold the specification vocabulary used by the theorem
statements; `Model*` style files (`Range.v`, `Indexer.v`, ...) hold only
definitions; `*Facts.v` hold proofs; `Properties_*.v` hold the property theorems,
a few lemmas used only there, concrete examples and `Print Assumptions`.

## Trusted base

* Coq's kernel (8.16.1), and `vm_compute` in the examples and in theorems about
  concrete doubles.
* No axioms of our own.  `Print Assumptions` stands after each of the 438
  property theorems.  For 260 of them it says "Closed under the global context".
  The others list the following axioms of the standard library and nothing else:
  - `ClassicalDedekindReals.sig_forall_dec`, `ClassicalDedekindReals.sig_not_dec`, `Classical_Prop.classic`, `FunctionalExtensionality.functional_extensionality_dep` (166): C15_cells_covered_once_partial, C15_parts_valid_partial, C31_origin_refuted, C32_centroids_partial, C32_lower_bound_refuted, C33_real_partial, C34_partial, C34_refuted, C35_step, C36_bounds, C36_convex, C41_balance, C41_periodic, C42_uniform, C43_average, C43_colliding, C43_consistent, C43_exactly_one_refuted, C43_left, C43_right, C44_between_refuted, C44_decreasing_partial, C44_flat, C44_increasing, C44_mirrored_partial, C44_mirrored_refuted, C44_overshoot, C44_turned, C46_balance, C46_consistent, C46_periodic, C46_rusanov, C46_uniform, C47_one_dimension, C47_run, C48_force, C48_no_magnetic_work, C49_current, C49_energy, C50_balance, C50_constant, C50_periodic, C50_total, C51_run, C53_constructor, C53_linear_partial, C53_linear_refuted, C53_odd, C53_symmetric_partial, C53_symmetric_refuted, C54_brio_wu_field_refuted, C54_pressure, C57_brio_wu_physical, C57_euler_flux, C57_gem_physical, C57_maxwell_flux, C57_pulse_physical, C57_sod_physical, C58_sod, C59_brio_wu, C59_gem, C60_advect, C61_upwind, C61_wave, C62_gem, C62_wall_refuted, C63_gem_totals, C63_harris_totals, C63_sod_totals, C69_structured_reports, C71_total_partial, C75_brio_wu, C75_gem, C75_harris, C75_sod, C75_wave, C76_gem_flat, C76_sod_flat, C76_sod_line, C77_sod_files, C77_sod_quiet, C78_gem, C78_layers, C78_line_partial, C78_rate_refuted, C79_pulse_near, C79_pulse_partial, C79_sod, C79_swap_refuted, C80_brio_wu_partial, C80_dip_refuted, C80_gem_partial, C80_near, C80_sod_partial, C80_speeding_refuted, C81_euler, C81_gem_refuted, C81_harris_refuted, C81_maxwell, C81_smooth, C81_wall, C82_brio_wu, C82_euler_flux, C82_gem, C82_maxwell_flux, C82_pulse, C82_recon_partial, C82_recon_refuted, C82_sod, C83_brio_wu, C83_brio_wu_partial, C83_gem, C83_gem_partial, C83_sod, C83_sod_partial, C84_brio_wu, C84_smooth, C84_smooth_run_partial, C85_bounded, C85_brio_wu, C85_brio_wu_constants, C85_gem, C85_gem_bounded, C85_gem_challenge, C85_gem_constants, C85_harris_constants, C85_harris_current_sheet, C85_two_fluid_brio_wu, C86_jump, C86_pulse, C86_values, C87_pulse, C88_pulse, C89_literals, C89_pulse, C89_sod, C90_pulse, C91_forces, C91_program, C92_ampere, C92_pressure, C92_refuted, C92_run, C93_pulse, C95_brio_wu, C95_gem, C95_gem_challenge, C95_harris_current_sheet, C95_two_fluid_brio_wu, C96_brio_wu, C96_gem, C96_gem_challenge, C96_harris_current_sheet, C96_two_fluid_brio_wu, C97_brio_wu, C97_exists, C97_gem, C97_gem_challenge, C97_harris_current_sheet, C97_two_fluid_brio_wu, C97_unique, C98_brio_wu, C98_gem, C98_gem_challenge, C98_harris_current_sheet, C98_two_fluid_brio_wu
  - `ClassicalDedekindReals.sig_forall_dec`, `FunctionalExtensionality.functional_extensionality_dep` (8): C35_linear, C35_scalar, C35_tableau, C35_zero, C73_digits_refuted, C73_file_refuted, C73_seventeen, C90_refuted
  - `ClassicalDedekindReals.sig_forall_dec`, `ClassicalDedekindReals.sig_not_dec`, `FunctionalExtensionality.functional_extensionality_dep` (3): C62_ampere, C62_balance, C62_divergence
  - `ClassicalDedekindReals.sig_forall_dec` (1): C69_structured_partial
  Tools that list opaque module fields also name the sealed standard library
  modules `RbaseSymbolsImpl`, `RinvImpl` and `Under_rel`.
* The library Flocq (IEEE arithmetic) is used in proofs about rounding (files
  `Float32Facts.v`, `RoundingFacts.v` and those that import them).  It states no
  axioms; the axioms below its theorems are those of the standard library's reals
  listed above.
* The translation from C++ to Gallina was made by hand from the text of the
  source.  It was not compared with a running program.  Every definition cites
  the lines it models and states its simplifications.  `RepoTests.v` carries out
  the unit tests of the repository in the model; all assertions hold.

### Modelled

`src/lib` (range, range_set, indexer, indexer_interface, exception),
`src/data` (datachunk, extended_datachunk, dataset, functions.h), `src/basis`,
`src/variable`, `src/grid` (grid, rectilinear, structured), all solvers in
`src/solver`, the reconstruction macros of `src/spatial_solver/functions.h`, and
the example programs and `src/main.cpp` (`Programs.v` their time steps, `Whole.v`
construction and initial conditions, `Main.v` the constants, loops and files).

### Not modelled

* Rounding in statements proved over R.  Where rounding matters a separate
  theorem about IEEE doubles is given.
* Division by zero in statements over R follows the total division of the
  standard library, x / 0 = 0.  In doubles the divisor of the limiter can be
  exactly 0 and the result is then not a number (C90_refuted); the statements
  over R do not see this (C58, C59, C86 and others).
* `exp`, `sin`, `cos`, `tanh`, `cosh`, `pow` in doubles are not specified.
* Statements about doubles assume that every operation is rounded by itself to
  binary64, to nearest: no fused multiply-add, no extended precision, no
  reordering.  CMakeLists.txt sets no flag that would change this, but a compiler
  may contract a * b + c where the processor has such an instruction.
* Orders of evaluation that C++11 leaves open are fixed in the model.  The only
  place found where the order matters is the assignment in `add_variable`, where
  both orders are modelled (C94).
* The grid is copied into the manager where the code keeps a reference; the grid
  has to outlive the manager, as it does in all examples.
* Memory allocation failure, the bytes of formatted numbers in files, console
  output other than that of `print`, the clock.  Of the file system only
  whether a file can be created is modelled, not a full disk or a write error.
* `operator<<` of range (it lacks a return statement, which is undefined).
* `shared_datachunk`, `spatial_solver/advection`, `temporal_solver/ssprk2`:
  constructors and destructors only, no behaviour.
* The CMake files.
* Range checks (`_QK_RANGE_CHECK_`) are taken as off, the default, everywhere
  except in `Checks.v`, which models the checked functions themselves (C69).

## How the theorems were tested

`seeded/LOG.jsonl` lists edits of the model and the theorems whose proofs stopped
going through.  Read it with care:

* "failed" means that the proof script, or a lemma below it, no longer compiles.
  A shared lemma can break proofs of claims that are still true.  The list is
  therefore an upper bound on the claims that the edit falsifies.
* "examples" are concrete computations whose value changed.  They are stronger
  evidence.
* Edits described as "repaired" change a defect recorded below into the intended
  behaviour; the refuting theorem must fail then.
* Only the property files named for a mutant were rebuilt, not all of them.

The tests exposed these weaknesses:

* C44 was stated about two specification functions only and never mentioned the
  program: a wrong sign in the reconstruction passed.  It is now stated about the
  model function.
* The face basis was modelled without any theorem about it; C66 was added.
* C57 takes the flux functions of the code as given.  A wrong pressure or wave
  speed was noticed by C43, C58 and C59 only.  The `_physical` theorems write the
  fluxes down from the equations.
* The specification of VTK files took the end of line from the model, so that a
  changed end of line passed; it now has its own (`VtkSpec.newline`).
* Nothing was stated about `operator!=` and the constructors of ranges
  (C03_inequality, C01_constructors), or about files with several chunks
  (C30_several_chunks).
* `full_copy` with one element too few was noticed by no container property; C67
  was added.

## Findings

Claims that are false of the code, each with a witness theorem (`*_refuted`).

* **C04 Traversal visits every cell exactly once in row-major order and stops.** Proved for every non-empty included sub range and for not included ones; refuted for included sub ranges without cells: the loop never ends normally. (`C04_empty_sub_range_refuted`)
* **C07 Assigning a range to itself is harmless.** Refuted: self assignment reads invalidated pointers for every range with a dimension. Assignment between distinct objects is proved. (`C07_self_assignment_refuted`)
* **C10 Region fill touches exactly its region.** Proved for non-empty regions, not included regions and whole fill; refuted for included regions without cells (the call never returns normally). (`C10_fill_empty_refuted`)
* **C11 pull copies region to region in order.** Copy semantics proved for all included non-empty regions; the claim that regions outside a container are rejected is refuted. (`C11_outside_rejected_refuted`)
* **C12 Whole-container pull copies the source contents.** Refuted for containers of equal volume with different origins; proved for containers over the same box. (`C12_whole_pull_refuted`)
* **C14 Copies are equal to their source.** Assignment of chunks and extended chunks is proved; refuted for copy constructors, which lose all elements, and for self assignment, which reads invalidated pointers. (`C14_copy_constructor_refuted`, `C14_chunk_copy_refuted`, `C14_chunk_self_assign_refuted`)
* **C15 Range decomposition is a partition.** Cover-exactly-once proved for lengths and counts below 2^24 (float rounding loses cells above, refuted); validity of the sub ranges and the volume sum proved when every part gets a cell in every dimension, refuted otherwise. (`C15_parts_valid_refuted`, `C15_cells_covered_once_refuted`)
* **C17 Region copy inside or between chunks.** Copy semantics proved for all included non-empty regions, also within one chunk; rejection of outside regions is refuted. (`C17_outside_rejected_refuted`)
* **C18 Periodic boundary.** Proved for all meshes at least as wide as the ghost layer, any dimension list. Refuted for narrower meshes (old ghost content is copied) and for chunks without ghost layers (out-of-bounds access). (`C18_narrow_mesh_refuted`, `C18_no_ghosts_refuted`)
* **C21 Free-slip boundary reverses only the normal momentum.** Refuted: tangential momentum is reversed as well. Proved for the normal and the non-momentum components and the frame. (`C21_tangential_refuted`)
* **C22 Conducting wall reverses the electric field only.** Refuted: the x component of the magnetic field is reversed as well. Proved for the other components and the frame. (`C22_magnetic_refuted`)
* **C25 Missing input variables are reported.** Refuted: the exception is constructed but not thrown, end() is dereferenced. (`C25_missing_input_refuted`)
* **C26 Variable ids are totally ordered.** Proved for bases with one name; refuted for bases of different names. (`C26_order_refuted`)
* **C27 Cloned ids never collide.** Clones never collide with each other. C27_user_name_refuted shows that a clone can collide with a name the user chose, which the property does not exclude. (`C27_user_name_refuted`)
* **C28 The swap solver exchanges compatible variables.** Proved for pairs with equal component boxes and for odd lists; the rejection of incompatible pairs is refuted. (`C28_incompatible_refuted`)
* **C30 VTK export is complete and ordered.** Whole file for grids of one to three dimensions and variables that exist; exceptions for all other requests. Beyond the property: on four or more dimensions no values are written although CELL_DATA announces them, and a missing variable is noticed only after the file has been overwritten. (`C30_four_dimensions_refuted`)
* **C31 VTK export places the grid where the grid is.** Refuted: the origin written is the middle of the domain; positions agree with the centroids only if twice the lower bound is the number of cells. Spacing and dimensions are proved. (`C31_origin_refuted`)
* **C32 Cell centroids tile the domain.** Proved for index ranges that begin at 0. Refuted for all others: the centroid ignores the lower bound. (`C32_lower_bound_refuted`)
* **C33 Initial conditions depend on position only.** Proved on three-dimensional grids, in any arithmetic and in closed form over the reals. On one- and two-dimensional grids, as in the examples, unwritten coordinates are read (refuted for every such grid and all parameters). (`C33_refuted`)
* **C34 Radial shock tube region is a ball.** The last term of the squared distance is (x2-c2)(x1-c2). Right only where x2 = c2 or x1 = x2; refuted by a cell at distance sqrt 200 that gets the inner state for radius 1. (`C34_refuted`)
* **C39 The advection loop is schedule independent.** Refuted: the loop of every dimension of every chunk has a data race, for either sign of the velocity and any contents; a complete schedule with a lost update is given. (`C39_refuted`, `C39_lost_update_refuted`)
* **C40 Euler stencil stays in bounds.** In bounds on grids of one to four dimensions, whatever the schedule. On five or more dimensions the state is read out of bounds: refuted. (`C40_five_dimensions_refuted`)
* **C43 HLL flux is consistent and upwind.** Consistent and upwind in exact arithmetic. For colliding supersonic streams the sum of both fluxes is used (refuted), and in doubles equal speeds give not-a-number (refuted). (`C43_exactly_one_refuted`, `C43_upwind_double_refuted`)
* **C44 Limited reconstruction stays between neighbours.** True up to a few times the tolerance 1e-12 the code adds to the slope; exactly true for increasing data. Exact statements for decreasing data and mirror images refuted. (`C44_between_refuted`, `C44_mirrored_refuted`, `C44_not_a_number_refuted`)
* **C47 Maxwell sweep leaves the normal components alone.** Zero normal flux for any arithmetic; any number of steps of the pulse program leaves Ex and Bx as they are in exact arithmetic. In doubles the integrator itself rounds: Bx = 0.1 is another double after one step (refuted). (`C47_run_double_refuted`)
* **C48 Lorentz force is exact and magnetic fields do no work.** C48_solve: for every grid, state and arithmetic the solver adds exactly the rates of lorentz_rate to the interior cells and changes nothing else, provided the right-hand side is a different variable with the fluid's shape. C48_force: over the reals these rates are com*(rho E + p x B) and com*(p.E). C48_no_magnetic_work: p.force = rho*power. The refuted theorems record that nothing checks the shape or the aliasing of the right-hand side. (`C48_alias_refuted`, `C48_shapes_refuted`)
* **C50 Advection solver conserves and stays in bounds.** Accesses in bounds for every interleaving; values for the sequential order in any arithmetic; conservation and constants in exact arithmetic. In doubles constant data can change in the last digit (refuted theorem). (`C50_constant_rounding_refuted`)
* **C52 Exception assignment replaces the message and what() is usable.** Refuted: what() returns a pointer into a temporary, assignment reads it and appends instead of replacing. Proved: the message built by the constructors and insertions. (`C52_what_refuted`, `C52_assign_refuted`, `C52_assign_appends_refuted`, `C52_from_base_refuted`)
* **C53 Grid stretching keeps the domain width.** Proved for whole widths (even ones for the symmetric bias) and exponents of at least 1 in exact arithmetic; refuted for every other width because the width is stored in an int, and for exponents below 1 in doubles: the widths become infinite, not a number or zero. (`C53_symmetric_refuted`, `C53_linear_refuted`, `C53_exponent_refuted`)
* **C54 Shock tube initial states are piecewise uniform and thermodynamically consistent.** States and pressures proved on up to three dimensions. Refuted parts: ghost cells are overwritten with zero, four dimensions write out of bounds, fewer than five components write into the next cell, and the plasma version stores By/(gamma-1) instead of By. (`C54_ghosts_kept_refuted`, `C54_four_dimensions_refuted`, `C54_few_components_refuted`, `C54_brio_wu_field_refuted`)
* **C55 Integrators reject unsuitable calls.** Refuted: none of these calls is reported; all but the unknown tag are undefined. (`C55_alignment_refuted`, `C55_stage_tag_refuted`, `C55_alias_refuted`, `C55_shapes_refuted`)
* **C56 Advection creates no new extremes.** Refuted: next to equal neighbours the flux is unlimited; the densities 0, 16, 0, 0 become 0, 12, 5, -1 at Courant number 1/4. (`C56_positivity_refuted`)
* **C60 The advection program keeps the total of the advected quantity.** Proved in the sequential order with every dimension periodic. The example never sets up its boundary solvers: as written the box gains mass (refuted). The loops race (C39). (`C60_as_written_refuted`)
* **C61 Electromagnetic wave initial condition is a wave.** The wave itself is proved. Refuted: a direction the grid does not have reads an unwritten coordinate, other numbers silently give zero fields. (`C61_direction_refuted`, `C61_silent_refuted`)
* **C62 The GEM current sheet is an equilibrium.** Equilibrium and divergence proved in exact arithmetic. Refuted: pi is mistyped as 3.14159263, so the perturbation does not vanish at the walls. (`C62_wall_refuted`)
* **C63 Whole example programs compute what their parts say.** Proved for sod_shock_tube, wave_1D, two_fluid_brio_wu, harris_current_sheet and gem_challenge. gaussian_pulse and advect_gaussian start with undefined behaviour (refuted). (`C63_gaussian_pulse_refuted`, `C63_advect_gaussian_refuted`)
* **C65 Assigning an indexer copies the traversal.** Proved for distinct objects. Refuted: self assignment reads invalidated pointers for every range with a dimension. (`C65_self_assignment_refuted`)
* **C66 Face basis setup.** Proved for the first setup and for the exception. Refuted: a rejected call has already changed num_points, and repeated setups pile up nodes and weights. (`C66_rejected_unchanged_refuted`, `C66_repeated_refuted`)
* **C68 Threads do not change the results of the programs.** Holds for all programs except advect_gaussian, whose loops race from every ready state. (`C68_advect_refuted`)
* **C69 Range checks of the debug build.** Rectilinear grids are proved. Refuted: the indexer accepts the number of dimensions itself and reads past its arrays; a container accepts a cell outside its range whose offset falls on another cell; structured grids with a lower bound other than 0 accept indices outside their arrays. (`C69_indexer_refuted`, `C69_data_refuted`, `C69_structured_refuted`)
* **C70 Pointer walking source kernels agree with the indexed ones.** On one thread every interior cell but the last one is right. Refuted: the last interior cell gets nothing, ghost cells between the rows are changed, and with OpenMP the shared pointers race whenever there are two iterations. Nothing calls these kernels. (`C70_lorentz_last_refuted`, `C70_lorentz_race_refuted`, `C70_current_last_refuted`, `C70_current_race_refuted`)
* **C71 Free function advection.** With positive velocities all accesses are inside the arrays and the total is preserved in exact arithmetic; on a line the values are given in any arithmetic. Refuted: a velocity that is not positive makes the loop read behind the array, for all contents; the strides take the first dimension as the fastest while ranges take the last, so the flow along dimension 0 goes along dimension 1. Nothing calls this function. (`C71_upstream_refuted`, `C71_direction_refuted`)
* **C72 Resizing a dataset.** Layout, constructors and sync are proved. Refuted: the elements keep old values in memory order instead of being zero, and a mesh without cells leaves the old chunk in place. resize is protected and only the constructors call it. (`C72_stale_refuted`, `C72_empty_refuted`)
* **C73 Numbers in VTK files determine the values.** Refuted: 16 significant digits do not determine a double; two managers with different values everywhere write the same text. With 17 digits any two valid positive doubles would differ. The text itself depends on the library; the statements hold for every library that rounds to the nearest decimal. (`C73_digits_refuted`, `C73_file_refuted`)
* **C74 The example programs write the files they should.** Proved for sod_shock_tube, wave_1D, two_fluid_brio_wu, harris_current_sheet, gem_challenge and, if all files can be created, for main. Refuted: if a file cannot be created, main reads the message of the exception after it is gone (undefined behaviour); gaussian_pulse and advect_gaussian begin with undefined behaviour and write nothing. (`C74_main_refuted`, `C74_gaussian_pulse_refuted`, `C74_advect_gaussian_refuted`)
* **C78 The magnetic field stays free of sources.** In one dimension the divergence does not change at all, and in up to three dimensions the flux through every layer stays as it is, with the walls of gem_challenge too. Refuted: in two dimensions the fluxes of Rusanov diffuse Bx along y and By along x only, so a field without sources gets sources: in one step of the program in doubles, and in exact arithmetic for every speed of light other than zero. (`C78_refuted`, `C78_rate_refuted`)
* **C79 The order of the axes does not matter.** Proved for a gas with walls and periodic boundaries and any order of up to three axes, for electric and magnetic fields whose three axes are turned cyclically, and up to the tolerance and growth of C86 (C79_pulse_near) for electric and magnetic fields with up to three axes in any order. Refuted as an exact statement for two axes of electric and magnetic fields exchanged, where the magnetic field changes sign: the reconstruction adds 1e-12 to the slope whichever its sign, so that data of the opposite sign do not give results of the opposite sign. (`C79_swap_refuted`)
* **C80 Density and pressure stay positive.** Proved with a lower bound, for sod_shock_tube and both fluids of gem_challenge, two_fluid_brio_wu and harris_current_sheet, if at every stage neighbouring densities are within a factor of nine, above 1e-9, and the waves at the faces stay below the given speed (density only); without any condition on the stages, density and pressure of a gas near a uniform state stay positive for a time given by the largest flux. Refuted without that condition on neighbours: the limiter is not cut off for slopes of opposite sign, so a face next to a local minimum gets a negative density, and density, momentum and energy are reconstructed one by one, so a face of a uniformly accelerated gas gets a negative pressure; in doubles every value is then NaN after one step of 1e-9. (`C80_dip_refuted`, `C80_speeding_refuted`, `C80_refuted`)
* **C81 The scheme is accurate for smooth data.** Proved up to 1.2e-12 at a face and 2.4e-12 divided by the cell width in the right-hand side, which come from the 1e-12 the limiter adds to the slopes. Refuted for gem_challenge, which main runs, and harris_current_sheet: in SI units all their densities are below 2e-14, so the densities at the faces are those of the cells and the scheme is of first order in the density from the start. For the equations of gas dynamics the bound holds where density and pressure are bounded from below and the cells are small enough for the waves at the faces to be ordered. (`C81_gem_refuted`, `C81_harris_refuted`)
* **C82 The results do not depend on the units.** Proved for the fluxes in any units and for whole runs of all programs when lengths and times change together (in a plasma with charge to mass ratios and currents that change inversely). Refuted for the unit of mass: the 1e-12 the limiter adds to the slopes is in no unit, so the reconstruction agrees only up to 4e-12 in either unit, and in doubles the same gas with a unit of mass 2^45 times as large ends with 15 percent more mass in its least dense cell. (`C82_recon_refuted`, `C82_refuted`)
* **C83 A gas in equilibrium stays in equilibrium.** Proved for gases at rest: for any run at whose stages the densities at the walls between cells are positive (the three _partial theorems), and without this assumption for runs short enough, with densities within a factor of 2.5 of each other. Refuted for gases that move: in doubles, six cells with equal velocity and pressure and densities of about 10^-12 are NaN after two steps, because the 1e-12 of the limiter changes density, momentum and energy differently; with densities of about 1 the gas is carried along. (`C83_refuted`)
* **C84 The electric field keeps in step with the charge.** Refuted: with electrons and ions at rest, equal pressure and no charge anywhere, but densities that jump, one step in doubles leaves a charge of 0.06 and a field whose divergence is 0, because the fluxes move mass that has no momentum and the current is made of momenta. Proved: by how much the law is missed changes in each step exactly by the weighted mean, over the three stages, of the net inflow of the mass that the fluxes move in excess of the mean momentum (C84_brio_wu); for smooth gases away from the walls that rate is at most a multiple of the width of a cell, and of 1e-12 over it, because of the limiter (C84_smooth), also over a run at whose stages the gases are smooth about the cell (C84_smooth_run_partial; that smoothness lasts is an assumption). (`C84_refuted`)
* **C90 Fields that are numbers stay numbers.** Refuted: the limiter adds 1e-12 to a difference and divides by the result, so where a value is by exactly 1e-12 below that of the cell before it (Bz = 1e-12 in one cell of three, 0 in the others) it divides by 0, and Ey and Bz are NaN after one step. Proved: this is the only way. If at the stages no such divisor is 0 all values stay numbers, with an explicit bound on their growth, and the sums stay as in C89. (`C90_refuted`)
* **C92 The constants of the current sheet make it an equilibrium.** The pressures are proved to balance exactly. Refuted for the current: mu0, eps0 and c are given with nine digits and c^2 mu0 eps0 is 1 - 8.7e-10, so the rate of change of Ez is not 0 anywhere; it is proved to be between 8.7e-10 and 8.8e-10 of the current divided by eps0. (`C92_refuted`)
* **C94 A variable that could not be created leaves no trace.** Proved if the constructor runs before operator[], as C++17 demands. The build uses C++11, where the compiler may insert the id first: then a null pointer stays in the map and the next request dereferences it (refuted, for every manager and id). As long as no constructor throws the orders agree, which holds for ids of fitting size. (`C94_entry_first_refuted`)

Observations from reading without a theorem of their own: `operator<<` of range
has no return statement; the ghost cells of right-hand sides are not meaningful;
`structured` does not override `write_vtk` and is therefore abstract; VTK files
declare `float` while doubles are written; the unit tests at test_indexer.cpp:138-151 extrude
another range than the one they test (`RepoTests.v` carries out both).

## Per property

Status "proved": every part of the statement is proved.  "partial": some part is
proved under stated conditions or is refuted.  "Exact" means real arithmetic.

| Property | Status | Model | Theorems | Note |
|---|---|---|---|---|
| C01 Range layout is row-major after any history | proved | Range | C01_range_history, C01_range_history_total, C01_range_volume, C01_constructors, C01_dims, C01_no_dims | Every history of mutating calls: described effect, or undefined behaviour exactly when an int result is not representable or an index is out of range. |
| C02 Range inclusion is set inclusion | proved | Range | C02_includes_iff_cells, C02_includes_refl, C02_includes_trans, C02_includes_antisym, C02_includes_dims |  |
| C03 Range equality and shifting | proved | Range | C03_equality, C03_inequality, C03_shift, C03_shift_back, C03_expand |  |
| C04 Traversal visits every cell exactly once in row-major order and stops | partial | Range, Indexer | C04_traversal_partial, C04_cells_each_once, C04_not_included, C04_default, C04_empty_sub_range_refuted | Proved for every non-empty included sub range and for not included ones; refuted for included sub ranges without cells: the loop never ends normally. |
| C05 Linear indices are a bijection onto storage | proved | Range, Indexer | C05_linear_index, C05_every_cell_reached, C05_linear_index_walk, C05_injective, C05_whole_range |  |
| C06 final_linear_index is one past the last cell | proved | Range, Indexer | C06_final_linear_index, C06_final_bounds |  |
| C07 Assigning a range to itself is harmless | partial | Range | C07_self_assignment_refuted, C07_assignment_partial | Refuted: self assignment reads invalidated pointers for every range with a dimension. Assignment between distinct objects is proved. |
| C08 No integer overflow on representable shapes | proved | Range, Indexer | C08_construction_defined, C08_construction_overflow, C08_no_overflow |  |
| C09 Element access is a store | proved | Interface | C09_writes, C09_read_total, C09_read_indexer, C09_construct |  |
| C10 Region fill touches exactly its region | partial | Interface | C10_fill_partial, C10_fill_outside_throws, C10_fill_all, C10_fill_empty_refuted | Proved for non-empty regions, not included regions and whole fill; refuted for included regions without cells (the call never returns normally). |
| C11 pull copies region to region in order | partial | Interface | C11_pull_partial, C11_pull_self_partial, C11_pull_mismatch_throws, C11_outside_rejected_refuted | Copy semantics proved for all included non-empty regions; the claim that regions outside a container are rejected is refuted. |
| C12 Whole-container pull copies the source contents | partial | Interface | C12_whole_pull_refuted, C12_whole_pull_same_box_partial | Refuted for containers of equal volume with different origins; proved for containers over the same box. |
| C13 Container swap exchanges contents | proved | Interface | C13_swap, C13_swap_mismatch_throws |  |
| C14 Copies are equal to their source | partial | Interface, Chunk | C14_copy_constructor_refuted, C14_chunk_assign, C14_extended_assign, C14_chunk_copy_refuted, C14_chunk_self_assign_refuted | Assignment of chunks and extended chunks is proved; refuted for copy constructors, which lose all elements, and for self assignment, which reads invalidated pointers. |
| C15 Range decomposition is a partition | partial | RangeSet | C15_cells_covered_once_partial, C15_parts_valid_partial, C15_parts_valid_refuted, C15_cells_covered_once_refuted | Cover-exactly-once proved for lengths and counts below 2^24 (float rounding loses cells above, refuted); validity of the sub ranges and the volume sum proved when every part gets a cell in every dimension, refuted otherwise. |
| C16 Ghost layer geometry | proved | Chunk | C16_resize, C16_fresh, C16_strips, C16_strip_cells |  |
| C17 Region copy inside or between chunks | partial | Chunk, Interface | C17_copy_to_partial, C17_copy_to_self_partial, C17_copy_to_mismatch_throws, C17_outside_rejected_refuted | Copy semantics proved for all included non-empty regions, also within one chunk; rejection of outside regions is refuted. |
| C18 Periodic boundary | partial | BC | C18_periodic_partial, C18_sources, C18_narrow_mesh_refuted, C18_no_ghosts_refuted | Proved for all meshes at least as wide as the ghost layer, any dimension list. Refuted for narrower meshes (old ghost content is copied) and for chunks without ghost layers (out-of-bounds access). |
| C19 Copy-out boundary mirrors the interior | proved | BC | C19_copy_out |  |
| C20 No-slip boundary mirrors and reverses momentum | proved | BC | C20_no_slip, C20_few_components | Needs the components 1..3 to exist. With fewer than four components nothing is reversed and nothing is reported (C20_few_components). |
| C21 Free-slip boundary reverses only the normal momentum | partial | BC | C21_free_slip_partial, C21_tangential_refuted | Refuted: tangential momentum is reversed as well. Proved for the normal and the non-momentum components and the frame. |
| C22 Conducting wall reverses the electric field only | partial | BC | C22_conducting_wall_partial, C22_magnetic_refuted | Refuted: the x component of the magnetic field is reversed as well. Proved for the other components and the frame. |
| C23 Boundary solvers never touch the interior and are idempotent | proved | BC | C23_solve, C23_interior, C23_bad_dimension |  |
| C24 Variables are created once and persist | proved | Manager | C24_request, C24_history, C24_add_variable, C24_mismatch |  |
| C25 Missing input variables are reported | partial | Manager | C25_present, C25_missing_input_refuted | Refuted: the exception is constructed but not thrown, end() is dereferenced. |
| C26 Variable ids are totally ordered | partial | VarId | C26_order_partial, C26_equality, C26_mismatch, C26_order_refuted | Proved for bases with one name; refuted for bases of different names. |
| C27 Cloned ids never collide | proved | VarId | C27_clones_distinct, C27_clones_defined, C27_clone_shape, C27_user_name_refuted | Clones never collide with each other. C27_user_name_refuted shows that a clone can collide with a name the user chose, which the property does not exclude. |
| C28 The swap solver exchanges compatible variables | partial | Solvers | C28_swap, C28_swap_fields, C28_swap_twice, C28_odd, C28_incompatible_refuted | Proved for pairs with equal component boxes and for odd lists; the rejection of incompatible pairs is refuted. |
| C29 The fill solver sets every element | proved | Solvers | C29_fill |  |
| C30 VTK export is complete and ordered | proved | Vtk | C30_file, C30_values, C30_dimensions, C30_nothing_written, C30_missing, C30_several_chunks, C30_four_dimensions_refuted | Whole file for grids of one to three dimensions and variables that exist; exceptions for all other requests. Beyond the property: on four or more dimensions no values are written although CELL_DATA announces them, and a missing variable is noticed only after the file has been overwritten. |
| C31 VTK export places the grid where the grid is | partial | Vtk, Grid | C31_geometry_partial, C31_origin_refuted | Refuted: the origin written is the middle of the domain; positions agree with the centroids only if twice the lower bound is the number of cells. Spacing and dimensions are proved. |
| C32 Cell centroids tile the domain | partial | Grid | C32_centroids_partial, C32_lower_bound_refuted | Proved for index ranges that begin at 0. Refuted for all others: the centroid ignores the lower bound. |
| C33 Initial conditions depend on position only | partial | Initial | C33_gaussian_partial, C33_magnetic_pulse_partial, C33_radial_partial, C33_real_partial, C33_refuted | Proved on three-dimensional grids, in any arithmetic and in closed form over the reals. On one- and two-dimensional grids, as in the examples, unwritten coordinates are read (refuted for every such grid and all parameters). |
| C34 Radial shock tube region is a ball | partial | Initial | C34_partial, C34_refuted | The last term of the squared distance is (x2-c2)(x1-c2). Right only where x2 = c2 or x1 = x2; refuted by a cell at distance sqrt 200 that gets the inner state for radius 1. |
| C35 SSPRK3 is the third-order Shu-Osher scheme | proved | Integrators, Kernel | C35_stage, C35_step, C35_tableau, C35_linear, C35_scalar, C35_zero | Stages for every arithmetic; the whole step in exact arithmetic. Needs 64 byte aligned storage (C55). |
| C36 SSPRK3 preserves convex bounds | proved | Integrators | C36_convex, C36_bounds | Exact arithmetic; needs aligned storage (C55). |
| C37 Integrators validate their variable lists | proved | Integrators | C37_rk1_inputs, C37_rk1_outputs, C37_ssprk3_inputs, C37_ssprk3_outputs, C37_rk1_step |  |
| C38 Parallel loops are schedule independent | proved | Par, Kernel, Sweep | C38_stage_0, C38_stage_1, C38_stage_2, C38_euler, C38_maxwell | Every interleaving of the single memory operations of the iterations of rk1 (a serial loop in the code), ssprk3, euler and maxwell. Euler on grids of up to four dimensions; on five and more the code faults (C40). |
| C39 The advection loop is schedule independent | partial | Advection, Par | C39_refuted, C39_lost_update_refuted | Refuted: the loop of every dimension of every chunk has a data race, for either sign of the velocity and any contents; a complete schedule with a lost update is given. |
| C40 Euler stencil stays in bounds | partial | Sweep, Euler | C38_euler, C40_solve, C40_five_dimensions_refuted | In bounds on grids of one to four dimensions, whatever the schedule. On five or more dimensions the state is read out of bounds: refuted. |
| C41 Euler right-hand side is conservative | proved | Sweep, Euler | C41_balance, C41_periodic | Exact arithmetic; every box of interior cells, and the whole mesh after the periodic boundary condition. |
| C42 Euler keeps a uniform state | proved | Sweep, Euler | C42_uniform | Exact arithmetic; positivity of the state is not needed. |
| C43 HLL flux is consistent and upwind | partial | Euler | C43_consistent, C43_left, C43_right, C43_average, C43_colliding, C43_exactly_one_refuted, C43_upwind_double_refuted | Consistent and upwind in exact arithmetic. For colliding supersonic streams the sum of both fluxes is used (refuted), and in doubles equal speeds give not-a-number (refuted). |
| C44 Limited reconstruction stays between neighbours | partial | Sweep | C44_increasing, C44_decreasing_partial, C44_overshoot, C44_between_refuted, C44_flat, C44_turned, C44_mirrored_partial, C44_mirrored_refuted, C44_not_a_number_refuted | True up to a few times the tolerance 1e-12 the code adds to the slope; exactly true for increasing data. Exact statements for decreasing data and mirror images refuted. |
| C45 The serial and parallel Euler and Maxwell kernels agree | proved | Sweep, Euler, Maxwell | C45_euler, C45_maxwell | Any arithmetic, bit for bit in every interior cell. |
| C46 Maxwell solver: bounds, conservation, consistency | proved | Sweep, Maxwell | C38_maxwell, C46_solve, C46_balance, C46_periodic, C46_consistent, C46_rusanov, C46_uniform | Bounds for any arithmetic; the rest in exact arithmetic. |
| C47 Maxwell sweep leaves the normal components alone | partial | Maxwell, Programs | C47_normal_flux, C47_one_dimension, C47_run, C47_run_double_refuted | Zero normal flux for any arithmetic; any number of steps of the pulse program leaves Ex and Bx as they are in exact arithmetic. In doubles the integrator itself rounds: Bx = 0.1 is another double after one step (refuted). |
| C48 Lorentz force is exact and magnetic fields do no work | proved | Sources | C48_solve, C48_default, C48_force, C48_no_magnetic_work, C48_counts, C48_alias_refuted, C48_shapes_refuted | C48_solve: for every grid, state and arithmetic the solver adds exactly the rates of lorentz_rate to the interior cells and changes nothing else, provided the right-hand side is a different variable with the fluid's shape. C48_force: over the reals these rates are com*(rho E + p x B) and com*(p.E). C48_no_magnetic_work: p.force = rho*power. The refuted theorems record that nothing checks the shape or the aliasing of the right-hand side. |
| C49 Current source is the summed current and energy is exchanged exactly | proved | Sources | C49_solve, C49_current, C49_energy, C49_counts, C49_setup_counts | Any number of species. C49_solve: what the solver adds, in any arithmetic. C49_current: over the reals this is -sum q/(m eps0) p. C49_energy: after the Lorentz solver for each species and the current solver, eps0 E.dE + sum of energies is 0 in every interior cell. |
| C50 Advection solver conserves and stays in bounds | proved | Advection | C50_stage_0, C50_stage_1, C50_total, C50_constant, C50_constant_rounding_refuted, C50_balance, C50_periodic, C50_in_bounds, C50_counts, C50_other_stage | Accesses in bounds for every interleaving; values for the sequential order in any arithmetic; conservation and constants in exact arithmetic. In doubles constant data can change in the last digit (refuted theorem). |
| C51 A periodic run conserves totals | proved | Programs | C51_run | Exact arithmetic, any number of steps, every grid with at least two cells in each dimension. |
| C52 Exception assignment replaces the message and what() is usable | partial | Exception | C52_message_partial, C52_what_refuted, C52_assign_refuted, C52_assign_appends_refuted, C52_from_std, C52_from_base_refuted | Refuted: what() returns a pointer into a temporary, assignment reads it and appends instead of replacing. Proved: the message built by the constructors and insertions. |
| C53 Grid stretching keeps the domain width | partial | Grid | C53_constructor, C53_symmetric_partial, C53_linear_partial, C53_symmetric_refuted, C53_linear_refuted, C53_exponent_refuted, C53_odd | Proved for whole widths (even ones for the symmetric bias) and exponents of at least 1 in exact arithmetic; refuted for every other width because the width is stored in an int, and for exponents below 1 in doubles: the widths become infinite, not a number or zero. |
| C54 Shock tube initial states are piecewise uniform and thermodynamically consistent | partial | Initial | C54_shock_tube, C54_pressure, C54_ghosts_kept_refuted, C54_four_dimensions_refuted, C54_few_components_refuted, C54_brio_wu, C54_brio_wu_field_refuted | States and pressures proved on up to three dimensions. Refuted parts: ghost cells are overwritten with zero, four dimensions write out of bounds, fewer than five components write into the next cell, and the plasma version stores By/(gamma-1) instead of By. |
| C55 Integrators reject unsuitable calls | partial | Integrators, Kernel | C55_alignment_refuted, C55_stage_tag_refuted, C55_alias_refuted, C55_shapes_refuted | Refuted: none of these calls is reported; all but the unknown tag are undefined. |
| C56 Advection creates no new extremes | partial | Advection | C56_positivity_refuted | Refuted: next to equal neighbours the flux is unlimited; the densities 0, 16, 0, 0 become 0, 12, 5, -1 at Courant number 1/4. |
| C57 The example programs run through and compute SSP-RK3 of the finite-volume system | proved | Programs, Physics | C57_pulse, C57_sod, C57_gem, C57_brio_wu, C57_euler_flux, C57_maxwell_flux, C57_pulse_physical, C57_sod_physical, C57_gem_physical, C57_brio_wu_physical | The first four are for every arithmetic and take the flux functions of the code as they are; the physical ones are for exact arithmetic and write the fluxes down from the equations, Sod on up to three dimensions; needs aligned storage and fitting shapes; Sod on up to four dimensions. The programs are modelled from set_time on; initial conditions and output are separate properties. |
| C58 A closed box keeps its mass and energy | proved | Programs | C58_sod | Exact arithmetic with the standard library convention for division by zero. |
| C59 The two-fluid programs keep electron mass, ion mass and magnetic flux | proved | Programs | C59_gem, C59_brio_wu | Exact arithmetic with the standard library convention for division by zero. |
| C60 The advection program keeps the total of the advected quantity | partial | Programs | C60_advect, C60_as_written_refuted | Proved in the sequential order with every dimension periodic. The example never sets up its boundary solvers: as written the box gains mass (refuted). The loops race (C39). |
| C61 Electromagnetic wave initial condition is a wave | partial | Initial | C61_wave, C61_upwind, C61_direction_refuted, C61_silent_refuted | The wave itself is proved. Refuted: a direction the grid does not have reads an unwritten coordinate, other numbers silently give zero fields. |
| C62 The GEM current sheet is an equilibrium | partial | Initial | C62_gem, C62_ampere, C62_balance, C62_divergence, C62_wall_refuted | Equilibrium and divergence proved in exact arithmetic. Refuted: pi is mistyped as 3.14159263, so the perturbation does not vanish at the walls. |
| C63 Whole example programs compute what their parts say | partial | Whole, Programs, Initial | C63_sod, C63_sod_totals, C63_wave, C63_brio_wu, C63_harris, C63_harris_totals, C63_gem, C63_gem_totals, C63_gaussian_pulse_refuted, C63_advect_gaussian_refuted | Proved for sod_shock_tube, wave_1D, two_fluid_brio_wu, harris_current_sheet and gem_challenge. gaussian_pulse and advect_gaussian start with undefined behaviour (refuted). |
| C64 print shows every cell and changes no value | proved | Vtk | C64_print | Besides, a requested variable that does not exist is created and printed as zeros. |
| C65 Assigning an indexer copies the traversal | partial | IndexerCopy | C65_assign, C65_same_traversal, C65_self_assignment_refuted | Proved for distinct objects. Refuted: self assignment reads invalidated pointers for every range with a dimension. |
| C66 Face basis setup | partial | VarId | C66_setup_partial, C66_rejected, C66_rejected_unchanged_refuted, C66_repeated_refuted | Proved for the first setup and for the exception. Refuted: a rejected call has already changed num_points, and repeated setups pile up nodes and weights. |
| C67 Whole-array copy between chunks | proved | Interface | C67_full_copy, C67_same_box, C67_mismatch | For distinct chunks; source and target are separate arrays in the model. |
| C68 Threads do not change the results of the programs | partial | Parallel | C68_pulse, C68_sod, C68_plasma, C68_sod_program, C68_wave_program, C68_brio_wu_program, C68_harris_program, C68_gem_program, C68_advect_one_thread, C68_advect_refuted | Holds for all programs except advect_gaussian, whose loops race from every ready state. |
| C69 Range checks of the debug build | partial | Checks | C69_next, C69_indexer_partial, C69_indexer_refuted, C69_data_partial, C69_data_cell, C69_data_refuted, C69_rectilinear, C69_structured_reports, C69_structured_partial, C69_structured_refuted | Rectilinear grids are proved. Refuted: the indexer accepts the number of dimensions itself and reads past its arrays; a container accepts a cell outside its range whose offset falls on another cell; structured grids with a lower bound other than 0 accept indices outside their arrays. |
| C70 Pointer walking source kernels agree with the indexed ones | partial | Walk | C70_lorentz_serial, C70_lorentz_partial, C70_lorentz_last_refuted, C70_lorentz_race_refuted, C70_current_serial, C70_current_last_refuted, C70_current_race_refuted | On one thread every interior cell but the last one is right. Refuted: the last interior cell gets nothing, ghost cells between the rows are changed, and with OpenMP the shared pointers race whenever there are two iterations. Nothing calls these kernels. |
| C71 Free function advection | partial | AdvectFree | C71_upstream_refuted, C71_total_partial, C71_line, C71_direction_refuted | With positive velocities all accesses are inside the arrays and the total is preserved in exact arithmetic; on a line the values are given in any arithmetic. Refuted: a velocity that is not positive makes the loop read behind the array, for all contents; the strides take the first dimension as the fastest while ranges take the last, so the flow along dimension 0 goes along dimension 1. Nothing calls this function. |
| C72 Resizing a dataset | partial | Dataset | C72_resize_partial, C72_constructor, C72_default, C72_empty_mesh, C72_stale_refuted, C72_empty_refuted | Layout, constructors and sync are proved. Refuted: the elements keep old values in memory order instead of being zero, and a mesh without cells leaves the old chunk in place. resize is protected and only the constructors call it. |
| C73 Numbers in VTK files determine the values | partial | Vtk | C73_digits_refuted, C73_file_refuted, C73_seventeen | Refuted: 16 significant digits do not determine a double; two managers with different values everywhere write the same text. With 17 digits any two valid positive doubles would differ. The text itself depends on the library; the statements hold for every library that rounds to the nearest decimal. |
| C74 The example programs write the files they should | partial | Main | C74_sod, C74_wave, C74_brio_wu, C74_harris, C74_gem, C74_names, C74_main, C74_main_refuted, C74_gaussian_pulse_refuted, C74_advect_gaussian_refuted | Proved for sod_shock_tube, wave_1D, two_fluid_brio_wu, harris_current_sheet, gem_challenge and, if all files can be created, for main. Refuted: if a file cannot be created, main reads the message of the exception after it is gone (undefined behaviour); gaussian_pulse and advect_gaussian begin with undefined behaviour and write nothing. |
| C75 Every file of a run shows the conserved totals | proved | Main | C75_column, C75_sod, C75_wave, C75_brio_wu, C75_harris, C75_gem, C75_unique | Exact arithmetic. The reader of columns is part of the specification. |
| C76 Moving the data moves the results | proved | Programs, Main | C76_pulse, C76_sod, C76_gem, C76_sod_rows, C76_wave_planes, C76_sod_flat, C76_gem_flat, C76_sod_line | Shifts and equal rows in every arithmetic; leaving out a dimension in exact arithmetic. In doubles the last bits differ there (C76_flat_doubles_ex): flux in and out are equal, but adding and subtracting them rounds. |
| C77 Nothing travels faster than the stencil | proved | Programs, Main | C77_pulse, C77_sod, C77_gem, C77_brio_wu, C77_sod_quiet, C77_sod_files | The reach is sharp for one step: in doubles a change 6 cells away has an effect, 7 cells away none (C77_pulse_ex). |
| C78 The magnetic field stays free of sources | partial | Programs | C78_line_partial, C78_layers, C78_gem, C78_refuted, C78_rate_refuted | In one dimension the divergence does not change at all, and in up to three dimensions the flux through every layer stays as it is, with the walls of gem_challenge too. Refuted: in two dimensions the fluxes of Rusanov diffuse Bx along y and By along x only, so a field without sources gets sources: in one step of the program in doubles, and in exact arithmetic for every speed of light other than zero. |
| C79 The order of the axes does not matter | partial | Programs | C79_sod, C79_pulse_partial, C79_pulse_near, C79_swap_refuted | Proved for a gas with walls and periodic boundaries and any order of up to three axes, for electric and magnetic fields whose three axes are turned cyclically, and up to the tolerance and growth of C86 (C79_pulse_near) for electric and magnetic fields with up to three axes in any order. Refuted as an exact statement for two axes of electric and magnetic fields exchanged, where the magnetic field changes sign: the reconstruction adds 1e-12 to the slope whichever its sign, so that data of the opposite sign do not give results of the opposite sign. |
| C80 Density and pressure stay positive | partial | Programs | C80_sod_partial, C80_gem_partial, C80_brio_wu_partial, C80_near, C80_dip_refuted, C80_speeding_refuted, C80_refuted | Proved with a lower bound, for sod_shock_tube and both fluids of gem_challenge, two_fluid_brio_wu and harris_current_sheet, if at every stage neighbouring densities are within a factor of nine, above 1e-9, and the waves at the faces stay below the given speed (density only); without any condition on the stages, density and pressure of a gas near a uniform state stay positive for a time given by the largest flux. Refuted without that condition on neighbours: the limiter is not cut off for slopes of opposite sign, so a face next to a local minimum gets a negative density, and density, momentum and energy are reconstructed one by one, so a face of a uniformly accelerated gas gets a negative pressure; in doubles every value is then NaN after one step of 1e-9. |
| C81 The scheme is accurate for smooth data | partial | Programs | C81_wall, C81_smooth, C81_maxwell, C81_euler, C81_gem_refuted, C81_harris_refuted | Proved up to 1.2e-12 at a face and 2.4e-12 divided by the cell width in the right-hand side, which come from the 1e-12 the limiter adds to the slopes. Refuted for gem_challenge, which main runs, and harris_current_sheet: in SI units all their densities are below 2e-14, so the densities at the faces are those of the cells and the scheme is of first order in the density from the start. For the equations of gas dynamics the bound holds where density and pressure are bounded from below and the cells are small enough for the waves at the faces to be ordered. |
| C82 The results do not depend on the units | partial | Programs | C82_euler_flux, C82_maxwell_flux, C82_recon_partial, C82_recon_refuted, C82_sod, C82_pulse, C82_gem, C82_brio_wu, C82_refuted | Proved for the fluxes in any units and for whole runs of all programs when lengths and times change together (in a plasma with charge to mass ratios and currents that change inversely). Refuted for the unit of mass: the 1e-12 the limiter adds to the slopes is in no unit, so the reconstruction agrees only up to 4e-12 in either unit, and in doubles the same gas with a unit of mass 2^45 times as large ends with 15 percent more mass in its least dense cell. |
| C83 A gas in equilibrium stays in equilibrium | partial | Programs | C83_sod_partial, C83_sod, C83_gem_partial, C83_gem, C83_brio_wu_partial, C83_brio_wu, C83_refuted | Proved for gases at rest: for any run at whose stages the densities at the walls between cells are positive (the three _partial theorems), and without this assumption for runs short enough, with densities within a factor of 2.5 of each other. Refuted for gases that move: in doubles, six cells with equal velocity and pressure and densities of about 10^-12 are NaN after two steps, because the 1e-12 of the limiter changes density, momentum and energy differently; with densities of about 1 the gas is carried along. |
| C84 The electric field keeps in step with the charge | partial | Programs | C84_brio_wu, C84_smooth, C84_smooth_run_partial, C84_refuted | Refuted: with electrons and ions at rest, equal pressure and no charge anywhere, but densities that jump, one step in doubles leaves a charge of 0.06 and a field whose divergence is 0, because the fluxes move mass that has no momentum and the current is made of momenta. Proved: by how much the law is missed changes in each step exactly by the weighted mean, over the three stages, of the net inflow of the mass that the fluxes move in excess of the mean momentum (C84_brio_wu); for smooth gases away from the walls that rate is at most a multiple of the width of a cell, and of 1e-12 over it, because of the limiter (C84_smooth), also over a run at whose stages the gases are smooth about the cell (C84_smooth_run_partial; that smoothness lasts is an assumption). |
| C85 Oscillations of a plasma do not grow | proved | Programs, Main | C85_brio_wu, C85_bounded, C85_two_fluid_brio_wu, C85_brio_wu_constants, C85_harris_constants, C85_gem_constants, C85_gem, C85_gem_bounded, C85_harris_current_sheet, C85_gem_challenge | Exact arithmetic. All cells up to six per step away must be uniform at the start, because nothing else is known about the others (C77). |
| C86 Small differences stay small | proved | Programs | C86_pulse, C86_values, C86_jump | Exact arithmetic. The tolerance cannot be left out: C86_jump gives values as near to each other as you like and values at a wall 2.5e-13 apart. |
| C87 Mirrored fields give mirrored results | proved | Programs | C87_pulse | Exact arithmetic. Not exactly a mirror image, because the reconstruction is not (C44_mirrored_refuted). |
| C88 Waves of any strength travel alike | proved | Programs | C88_pulse | Exact arithmetic. Exactly only for fields large compared to 1e-12 (C82). |
| C89 In doubles the totals change only by rounding | proved | Programs | C89_pulse, C89_sod, C89_literals | IEEE doubles; C89_literals says that the model gives each decimal literal the nearest double. Sizes of values and fluxes at the stages are hypotheses here; C90 derives them for Maxwell's equations. Walls are covered only in exact arithmetic (C58). |
| C90 Fields that are numbers stay numbers | partial | Programs | C90_pulse, C90_refuted | Refuted: the limiter adds 1e-12 to a difference and divides by the result, so where a value is by exactly 1e-12 below that of the cell before it (Bz = 1e-12 in one cell of three, 0 in the others) it divides by 0, and Ey and Bz are NaN after one step. Proved: this is the only way. If at the stages no such divisor is 0 all values stay numbers, with an explicit bound on their growth, and the sums stay as in C89. |
| C91 Each fluid of the current sheet is in balance by itself | proved | Initial, Main | C91_forces, C91_program | Exact arithmetic; balance of the differential equations, not of the scheme. |
| C92 The constants of the current sheet make it an equilibrium | partial | Initial, Main | C92_pressure, C92_ampere, C92_run, C92_refuted | The pressures are proved to balance exactly. Refuted for the current: mu0, eps0 and c are given with nine digits and c^2 mu0 eps0 is 1 - 8.7e-10, so the rate of change of Ez is not 0 anywhere; it is proved to be between 8.7e-10 and 8.8e-10 of the current divided by eps0. |
| C93 The computed field is the exact field up to a rounding error | proved | Programs | C93_pulse | That no divisor of the limiter is 0 is part of the statement; the program does not check it and C90 shows what happens otherwise. Euler's equations are not covered: their fluxes are not Lipschitz. |
| C94 A variable that could not be created leaves no trace | partial | Manager, AddOrder | C94_constructor_first, C94_request_again, C94_entry_first_refuted, C94_same_add, C94_same_output, C94_same_requests, C94_fitting | Proved if the constructor runs before operator[], as C++17 demands. The build uses C++11, where the compiler may insert the id first: then a null pointer stays in the map and the next request dereferences it (refuted, for every manager and id). As long as no constructor throws the orders agree, which holds for ids of fitting size. |
| C95 The motion of a magnetised plasma gains no energy | proved | Programs, Main | C95_brio_wu, C95_gem, C95_two_fluid_brio_wu, C95_harris_current_sheet, C95_gem_challenge, C85_brio_wu_constants, C85_harris_constants, C85_gem_constants | The motion is turned by a skew-symmetric operator in the inner product of the energy; one step of SSP-RK3 is its third-order Taylor polynomial, whose norm is computed exactly. The frequencies enter through bounds oc and op, so no square roots are needed. |
| C96 A uniform plasma keeps its energy and is not heated by the time stepping | proved | Programs, Main | C96_brio_wu, C96_gem, C96_two_fluid_brio_wu, C96_harris_current_sheet, C96_gem_challenge | The work done on the fluids is the work taken from the field at each stage, so the change in one step is the error of the quadrature of a quadratic form, which is computed exactly and is of fourth order; the energy of motion does not grow (C95), so the changes add up. |
| C97 The motion of a uniform plasma is that of the equations of motion up to third order | proved | Programs, Main | C97_brio_wu, C97_gem, C97_two_fluid_brio_wu, C97_harris_current_sheet, C97_gem_challenge, C97_exists, C97_unique | One step is the third-order Taylor polynomial of the exact motion. The remainder is bounded by four integrations of the equation along the exact solution, whose energy stays as it is; earlier errors do not grow (C95), so the errors of the steps add up. Exact solutions are given by their derivatives (derivable_pt_lim); by C97_exists (power series) and C97_unique (energy of the difference) there is exactly one for each start. Examples are two beams on circles and plasma oscillations with the constants of two_fluid_brio_wu, with cosine and sine. |
| C98 A neutral plasma and its field keep their momentum | proved | Programs, Main | C98_brio_wu, C98_gem, C98_two_fluid_brio_wu, C98_harris_current_sheet, C98_gem_challenge | The momentum is a linear function of the motion in a fixed magnetic field that vanishes on every rate of change, and one step is a polynomial of the operator that gives these rates (C95). |
| C99 Calls with unsuitable variables are reported | proved | Euler, Maxwell, Parallel, Initial, Vtk | C99_euler, C99_maxwell, C99_brio_wu, C99_vtk_basis, C99_variable_basis | By cases on the lists; the messages are those of the source, and the possible outcomes under all schedules are exactly the one exception. |
