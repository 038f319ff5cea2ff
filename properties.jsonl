{"id": "C01", "title": "Range layout is row-major after any history", "statement": "After constructing a range and applying any sequence of extrude, expand, shift, set, resize and assignment from another range, lower(i)/upper(i) are exactly the bounds those calls describe, length(i)=upper(i)-lower(i), stride(i) is the product of the lengths of the later dimensions, and volume() is the product of all lengths (0 for a 0-dimensional range).", "quantifier": "every number of dimensions, every bounds, every finite history of mutating calls whose integer arithmetic stays inside int", "why_tests_cant": "the bounds, the dimension count and the mutation history are all unbounded; a test fixes one shape and one short history", "anchors": ["src/lib/range.cpp: range::setup, extrude, expand, shift, set, resize, operator=, volume, length, stride", "src/lib/range.h"]}
{"id": "C02", "title": "Range inclusion is set inclusion", "statement": "a.includes(b) is reflexive, transitive and antisymmetric up to ==, is false when the dimension counts differ, and for a non-empty b holds exactly when every cell of b is a cell of a.", "quantifier": "all pairs and triples of ranges", "why_tests_cant": "an order law over all triples of boxes of every dimension cannot be enumerated", "anchors": ["src/lib/range.cpp: range::includes", "src/lib/range.h: operator=="]}
{"id": "C03", "title": "Range equality and shifting", "statement": "== holds exactly when the dimension count and all bounds agree (so it is an equivalence); shift(d,s) keeps every length, stride and the volume and is undone by shift(d,-s); expand(d,a,b) is undone by expand(d,-a,-b) and changes length(d) by b-a only.", "quantifier": "all ranges, dimensions and offsets whose arithmetic stays inside int", "why_tests_cant": "inverse and frame laws quantify over all ranges and offsets", "anchors": ["src/lib/range.h: range::operator==", "src/lib/range.cpp: shift, expand"]}
{"id": "C04", "title": "Traversal visits every cell exactly once in row-major order and stops", "statement": "Iterating `for(indexer i = r.indexer(sub); i.exists(); i.next())` visits exactly the cells of sub that lie in r when sub is included in r, each once, last dimension fastest, then stops; for a sub range that holds no cell it visits nothing.", "quantifier": "every dimension count, every range, every included sub range, including empty ones", "why_tests_cant": "needs induction over the dimension count and over unboundedly many steps; non-termination on an empty range is not observable by a finite test", "anchors": ["src/lib/indexer.cpp: indexer::indexer, next, recursive_increment_dim", "src/lib/indexer.h: exists, linear_index", "src/lib/range.cpp: range::indexer"]}
{"id": "C05", "title": "Linear indices are a bijection onto storage", "statement": "At every step of a traversal the linear index equals the row-major offset of the current cell, lies in [0, volume), different cells have different linear indices, and a traversal of the whole range yields 0,1,2,...,volume-1 in order.", "quantifier": "every non-empty range and included non-empty sub range of any dimension", "why_tests_cant": "injectivity and in-bounds hold over all shapes only by an inductive argument", "anchors": ["src/lib/indexer.cpp", "src/lib/indexer.h: linear_index", "src/lib/range.cpp: setup"]}
{"id": "C06", "title": "final_linear_index is one past the last cell", "statement": "indexer.final_linear_index() equals the linear index of the last cell of the sub range plus one, so the half-open interval [first linear index, final_linear_index) contains the linear index of every cell of the sub range and stays inside storage.", "quantifier": "every non-empty sub range included in any range of any dimension", "why_tests_cant": "the parallel solvers use it as a loop bound for every grid shape; a test covers single shapes", "anchors": ["src/lib/indexer.cpp: final_linear_index", "src/solver/euler.cpp: solve_HLL_mp", "src/solver/maxwell.cpp: solve_rusanov_mp"]}
{"id": "C07", "title": "Assigning a range to itself is harmless", "statement": "r = r and r.resize(r) leave r unchanged and have defined behaviour; assigning between distinct ranges makes the target equal to the source and leaves the source alone.", "quantifier": "all ranges, aliased or not", "why_tests_cant": "self-assignment reads through pointers into a vector that was just cleared; running it may appear to work or not depending on the library", "anchors": ["src/lib/range.cpp: operator=, resize, setup", "src/data/datachunk.cpp: operator=, resize"]}
{"id": "C08", "title": "No integer overflow on representable shapes", "statement": "If every bound and length of a range is an int and the product of the lengths (of a non-empty range) fits in int, then construction, volume, the indexer constructor, every next() and final_linear_index compute without signed overflow; if the product of the trailing lengths does not fit, construction is undefined.", "quantifier": "every range of every dimension, every included sub range, every step", "why_tests_cant": "overflow thresholds are at 2^31 cells, out of reach of tests, and the claim is about every intermediate value", "anchors": ["src/lib/range.cpp: setup, volume", "src/lib/indexer.cpp"]}
{"id": "C09", "title": "Element access is a store", "statement": "Writing an element through an indexer or through data(coordinates) and reading it back through either interface yields the written value; every other element keeps its value; distinct cells never share storage.", "quantifier": "all ranges, cells, values and interleavings of reads and writes", "why_tests_cant": "aliasing of two distinct cells for some shape would only show for that shape", "anchors": ["src/lib/indexer_interface.h: operator[], data(const int*), data(const indexer &)"]}
{"id": "C10", "title": "Region fill touches exactly its region", "statement": "fill(sub, v) throws and changes nothing when sub is not included in the range; otherwise exactly the cells of sub become v and all other cells keep their value; fill(v) sets every cell.", "quantifier": "all ranges, sub ranges (also empty), values and prior contents", "why_tests_cant": "frame condition over all shapes; termination on empty sub ranges", "anchors": ["src/lib/indexer_interface.h: fill"]}
{"id": "C11", "title": "pull copies region to region in order", "statement": "pull(source, from, to) throws and changes nothing if from and to have different volumes; otherwise the k-th cell of `to` receives the k-th cell of `from` (row-major), nothing else changes; invalid regions are rejected rather than silently ignored.", "quantifier": "all pairs of ranges, regions and contents", "why_tests_cant": "quantifies over all pairs of shapes; silent no-ops are invisible to a test that does not use an invalid region", "anchors": ["src/lib/indexer_interface.h: pull(interface, from, to)"]}
{"id": "C12", "title": "Whole-container pull copies the source contents", "statement": "pull(source) makes the k-th element of the target equal to the k-th element of the source whenever the volumes agree, whatever the origins of the two ranges.", "quantifier": "all pairs of containers of equal volume", "why_tests_cant": "depends on the relation of two arbitrary ranges; equal-range tests always pass", "anchors": ["src/lib/indexer_interface.h: pull(const indexer_interface<T>&)"]}
{"id": "C13", "title": "Container swap exchanges contents", "statement": "a.swap(b) exchanges all elements when the volumes agree, is its own inverse, never changes the ranges, and throws without changing either container when the volumes differ.", "quantifier": "all pairs of containers", "why_tests_cant": "law over all contents and shapes including failure atomicity", "anchors": ["src/lib/indexer_interface.h: swap"]}
{"id": "C14", "title": "Copies are equal to their source", "statement": "Copy-constructing a container (or data chunk) yields the same range and the same elements; assigning a data chunk to another makes range and elements equal to the source.", "quantifier": "all containers and contents, any target state before the assignment", "why_tests_cant": "must hold for all contents; a zero-filled source hides the loss", "anchors": ["src/lib/indexer_interface.h: copy constructor", "src/data/datachunk.cpp: operator="]}
{"id": "C15", "title": "Range decomposition is a partition", "statement": "Decomposing a range into n_1 x ... x n_d sub ranges covers every cell exactly once and every produced sub range is a valid sub range (non-negative lengths, included in the parent), so the sub-range volumes add up to the parent volume.", "quantifier": "all parent ranges and all positive subdivision counts", "why_tests_cant": "rounding of float division and remainders depends on arithmetic facts about unbounded pairs (length, count)", "anchors": ["src/lib/range_set.cpp: setup"]}
{"id": "C16", "title": "Ghost layer geometry", "statement": "For a chunk with mesh range M and g ghost layers the chunk covers M grown by g in every mesh dimension; for each mesh dimension the lower/upper external strips lie just outside M, the lower/upper internal strips just inside, all have equal volume, lie inside the chunk, external strips of all dimensions are disjoint from M and from each other, and the internal strips lie in M when M has at least g cells in that dimension.", "quantifier": "all mesh ranges, component ranges, ghost counts and dimensions", "why_tests_cant": "geometric facts for all shapes; degenerate meshes thinner than the ghost layer are rarely tested", "anchors": ["src/data/extended_datachunk.cpp: resize", "src/data/extended_datachunk.h"]}
{"id": "C17", "title": "Region copy inside or between chunks", "statement": "copy_to(a, from, b, to) with regions of equal volume gives the k-th cell of `to` the old value of the k-th cell of `from`, changes nothing else, also when a and b are the same chunk and the regions do not overlap; unequal volumes throw and change nothing; regions outside the chunk are rejected.", "quantifier": "all chunks, regions, contents; aliased and unaliased", "why_tests_cant": "aliasing and out-of-range regions over all shapes", "anchors": ["src/data/functions.h: copy_to"]}
{"id": "C18", "title": "Periodic boundary", "statement": "After the periodic boundary solve for dimension d every ghost cell beyond the upper (lower) face of d holds the value of the interior cell exactly one period away, for every component; interior cells and all other ghost cells are unchanged.", "quantifier": "all meshes, ghost counts, contents, lists of periodic dimensions", "why_tests_cant": "for every shape, component and cell; fails only on meshes thinner than the ghost layer", "anchors": ["src/solver/bc_periodic.cpp: solve", "src/data/functions.h: copy_to"]}
{"id": "C19", "title": "Copy-out boundary mirrors the interior", "statement": "After the copy-out boundary solve each ghost layer j beyond a face of a listed dimension equals the j-th interior layer from that face; nothing else changes.", "quantifier": "all meshes with at least as many cells as ghost layers, all contents, all dimension lists", "why_tests_cant": "for every shape and layer count", "anchors": ["src/solver/bc_copy_out.cpp: solve"]}
{"id": "C20", "title": "No-slip boundary mirrors and reverses momentum", "statement": "After the no-slip boundary solve the ghost layers mirror the interior with the momentum components (1,2,3) negated and all other components copied; nothing else changes.", "quantifier": "all meshes with at least as many cells as ghost layers, all contents and dimension lists", "why_tests_cant": "for every shape, component and layer count", "anchors": ["src/solver/bc_no_slip.cpp: solve"]}
{"id": "C21", "title": "Free-slip boundary reverses only the normal momentum", "statement": "At a free-slip wall normal to dimension d only the momentum component normal to the wall is negated in the mirrored ghost layers; tangential momentum is copied.", "quantifier": "all meshes, contents and wall dimensions", "why_tests_cant": "must be checked for all components and wall orientations", "anchors": ["src/solver/bc_free_slip.cpp: solve"]}
{"id": "C22", "title": "Conducting wall reverses the electric field only", "statement": "At a conducting wall the mirrored ghost layers have the three electric components negated, and the magnetic components copied.", "quantifier": "all meshes, contents and wall dimensions", "why_tests_cant": "must be checked for all components and wall orientations", "anchors": ["src/solver/bc_conducting_wall.cpp: solve"]}
{"id": "C23", "title": "Boundary solvers never touch the interior and are idempotent", "statement": "Each boundary solver leaves every interior cell of every variable unchanged, leaves all variables it was not given unchanged, and running it twice gives the same result as running it once.", "quantifier": "all boundary kinds, meshes with at least as many cells as ghost layers, contents, dimension lists without and with repetition", "why_tests_cant": "idempotence and frame over all states", "anchors": ["src/solver/bc_periodic.cpp", "src/solver/bc_copy_out.cpp", "src/solver/bc_no_slip.cpp", "src/solver/bc_free_slip.cpp", "src/solver/bc_conducting_wall.cpp"]}
{"id": "C24", "title": "Variables are created once and persist", "statement": "Requesting an output variable returns the existing variable if one with that id exists and otherwise creates one with the id's components on the manager's grid, all elements zero; requesting any id never changes the contents of any other variable; add_variable throws if and only if the variable exists.", "quantifier": "all histories of variable requests over ids with one basis", "why_tests_cant": "all histories of requests; a map lookup law", "anchors": ["src/variable/variable_manager.cpp: output_variable, add_variable", "src/data/dataset.cpp: resize"]}
{"id": "C25", "title": "Missing input variables are reported", "statement": "Requesting an input variable that was never created throws an exception.", "quantifier": "all manager states and ids", "why_tests_cant": "the failing path dereferences the end iterator; what a run shows is arbitrary", "anchors": ["src/variable/variable_manager.cpp: input_variable"]}
{"id": "C26", "title": "Variable ids are totally ordered", "statement": "The order used to store variables is a strict weak order whose equivalence is ==, so that lookups in the variable map are well defined.", "quantifier": "all triples of ids that do not share a name with different component lists", "why_tests_cant": "order axioms over all triples of strings, component lists and bases", "anchors": ["src/variable/variable_id.h: operator<, operator==", "src/basis/basis.h: operator<"]}
{"id": "C27", "title": "Cloned ids never collide", "statement": "Ids returned by unique_clone are pairwise different in name, whatever ids are cloned and how often, also when clones are cloned again.", "quantifier": "all histories of unique_clone calls on arbitrary ids (fewer than 2^31 calls)", "why_tests_cant": "all strings and all histories; relies on decimal printing and suffix parsing", "anchors": ["src/variable/variable_id.h: unique_clone", "src/variable/variable_id.cpp"]}
{"id": "C28", "title": "The swap solver exchanges compatible variables", "statement": "The swap solver exchanges the contents of each listed pair, leaves other variables unchanged, undoes itself when run twice, throws on an odd list, and rejects pairs with incompatible shapes.", "quantifier": "all manager states and pair lists", "why_tests_cant": "all states; the incompatible pair is accepted silently", "anchors": ["src/solver/swap.cpp: solve", "src/lib/indexer_interface.h: swap"]}
{"id": "C29", "title": "The fill solver sets every element", "statement": "The fill solver sets every element (interior and ghost, all components) of every output variable to the value and leaves all other variables unchanged, creating missing variables.", "quantifier": "all manager states, lists and values", "why_tests_cant": "frame over all states and shapes", "anchors": ["src/solver/fill.cpp: solve"]}
{"id": "C30", "title": "VTK export is complete and ordered", "statement": "For a 1, 2 or 3 dimensional grid a successful write_vtk writes, per requested variable and component, exactly as many values as CELL_DATA announces, namely one per interior cell, x fastest, each being the value of that cell and component; DIMENSIONS minus one multiply to the same number; ghost cells are never written.", "quantifier": "all grids, variables, contents and variable lists", "why_tests_cant": "for all shapes; order and count errors depend on extents", "anchors": ["src/variable/variable_manager.cpp: write_vtk", "src/variable/variable.cpp: write_vtk", "src/data/datachunk.cpp: write_VTK", "src/grid/rectilinear.cpp: write_vtk"]}
{"id": "C31", "title": "VTK export places the grid where the grid is", "statement": "The ORIGIN written for a rectilinear grid is the start corner of the grid in each dimension, so exported cell positions agree with the cell centroids of the grid.", "quantifier": "all rectilinear grids", "why_tests_cant": "holds or fails for real-valued starts and widths in general", "anchors": ["src/grid/rectilinear.cpp: write_vtk, xc"]}
{"id": "C32", "title": "Cell centroids tile the domain", "statement": "For each cell of a rectilinear grid the centroid lies strictly inside the domain, neighbouring centroids are dx apart, the first is half a cell from the start and the last half a cell from the end.", "quantifier": "all rectilinear grids with positive widths, any index range", "why_tests_cant": "all real starts/widths and all index offsets", "anchors": ["src/grid/rectilinear.cpp: setup, xc, centroid"]}
{"id": "C33", "title": "Initial conditions depend on position only", "statement": "The Gaussian, magnetic-pulse and radial shock tube initial conditions give each interior cell a value that is a function of the cell centroid, on 1, 2 and 3 dimensional grids.", "quantifier": "all grids of 1 to 3 dimensions, all parameters", "why_tests_cant": "reading an uninitialised coordinate may look right in a run", "anchors": ["src/solver/gaussian.cpp: solve", "src/solver/magnetic_pulse.cpp: solve", "src/solver/radial_shock_tube.cpp: solve"]}
{"id": "C34", "title": "Radial shock tube region is a ball", "statement": "A cell gets the inner state exactly when the distance of its centroid to the centre is less than (or equal as coded) the radius.", "quantifier": "all centres, radii and grid positions", "why_tests_cant": "a geometric statement over all points", "anchors": ["src/solver/radial_shock_tube.cpp: solve"]}
{"id": "C35", "title": "SSPRK3 is the third-order Shu-Osher scheme", "statement": "Running the three stages with the right-hand side evaluated on the previous stage output updates each element by the Shu-Osher scheme; for linear right-hand sides z=dt*lambda one step multiplies by 1+z+z^2/2+z^3/6 in exact arithmetic; zero right-hand side leaves the value unchanged; only the stage output variable changes.", "quantifier": "all contents, sizes, time steps, right-hand sides", "why_tests_cant": "algebraic identity over all reals and all array sizes", "anchors": ["src/solver/ssprk3.cpp: solve, stage_0, stage_1, stage_2"]}
{"id": "C36", "title": "SSPRK3 preserves convex bounds", "statement": "If a forward Euler step of size dt keeps every element inside an interval (or any convex set), so does one SSPRK3 step of size dt.", "quantifier": "all right-hand side operators, all intervals, all states", "why_tests_cant": "strong stability is a statement over all operators", "anchors": ["src/solver/ssprk3.cpp"]}
{"id": "C37", "title": "Integrators validate their variable lists", "statement": "rk1 and ssprk3 throw without changing any variable when the number of inputs or outputs is wrong; rk1 stage 0 computes q+dt*r for every element and changes only its output.", "quantifier": "all manager states, list lengths and stage tags", "why_tests_cant": "all list lengths and states", "anchors": ["src/solver/rk1.cpp: solve", "src/solver/ssprk3.cpp: solve"]}
{"id": "C38", "title": "Parallel loops are schedule independent", "statement": "The OpenMP loops of ssprk3, rk1, euler and maxwell produce, for every interleaving of the memory operations of their iterations, the same memory as sequential execution.", "quantifier": "all schedules / interleavings, all thread counts, all array sizes and contents", "why_tests_cant": "exponentially many interleavings; a race may never show in a test", "anchors": ["src/solver/ssprk3.cpp", "src/solver/euler.cpp: solve_HLL_mp", "src/solver/maxwell.cpp: solve_rusanov_mp"]}
{"id": "C39", "title": "The advection loop is schedule independent", "statement": "The OpenMP loop of the advection solver produces the sequential result for every interleaving.", "quantifier": "all schedules and contents", "why_tests_cant": "a lost update needs a particular interleaving", "anchors": ["src/solver/ssprk2_advection.cpp: advection_iterate"]}
{"id": "C40", "title": "Euler stencil stays in bounds", "statement": "With the default two ghost layers every element the Euler solver reads or writes lies inside the chunk, for every loop iteration including those over ghost cells between rows.", "quantifier": "all grids of 1 to 3 (and more) dimensions and all iterations", "why_tests_cant": "the sweep is linear through memory, so safety depends on all extents", "anchors": ["src/solver/euler.cpp: solve_HLL_mp", "src/lib/indexer.cpp: final_linear_index"]}
{"id": "C41", "title": "Euler right-hand side is conservative", "statement": "The amount the Euler solver adds to the right-hand side, summed over a row of interior cells and multiplied by the cell width, equals inflow minus outflow through the two end faces; with periodic ghost cells the total over the domain is zero, for mass, momentum and energy.", "quantifier": "all states, all grid sizes and dimensions, in exact real arithmetic", "why_tests_cant": "telescoping over unboundedly many cells with nonlinear fluxes", "anchors": ["src/solver/euler.cpp: solve_HLL_mp"]}
{"id": "C42", "title": "Euler keeps a uniform state", "statement": "If all cells of the stencil hold the same state, the contribution to the right-hand side is zero.", "quantifier": "all states with positive density and pressure, all grids", "why_tests_cant": "all real states", "anchors": ["src/solver/euler.cpp: solve_HLL_mp"]}
{"id": "C43", "title": "HLL flux is consistent and upwind", "statement": "The interface flux of two equal states is the physical flux; if all waves move right the flux is the left flux, if all move left it is the right flux, and otherwise it is the HLL average; exactly one of the three is selected.", "quantifier": "all pairs of states", "why_tests_cant": "all real states; the failing region is a strongly colliding flow", "anchors": ["src/solver/euler.cpp: solve_HLL_mp"]}
{"id": "C44", "title": "Limited reconstruction stays between neighbours", "statement": "For monotone neighbouring values the reconstructed interface value lies between the two adjacent cell values, constant data are reproduced exactly, and reflecting the data reflects the result.", "quantifier": "all real cell values", "why_tests_cant": "all real triples; violated only in a tiny interval", "anchors": ["src/solver/euler.cpp: solve_HLL_mp", "src/solver/maxwell.cpp: solve_rusanov_mp"]}
{"id": "C45", "title": "The serial and parallel Euler and Maxwell kernels agree", "statement": "The gather (parallel) kernel and the scatter (serial) kernel leave the same right-hand side in all interior cells.", "quantifier": "all grids, states, prior right-hand sides", "why_tests_cant": "program equivalence over all inputs", "anchors": ["src/solver/euler.cpp: solve_HLL_mp, solve_HLL_fast", "src/spatial_solver/functions.h", "src/solver/maxwell.cpp"]}
{"id": "C46", "title": "Maxwell solver: bounds, conservation, consistency", "statement": "With two ghost layers all accesses of the Maxwell solver are in bounds; the right-hand side is conservative like the Euler one; equal states give the physical curl flux, so uniform fields give zero right-hand side.", "quantifier": "all grids, states, speeds of light", "why_tests_cant": "as for Euler", "anchors": ["src/solver/maxwell.cpp: solve_rusanov_mp"]}
{"id": "C47", "title": "Maxwell sweep leaves the normal components alone", "statement": "The sweep along dimension d contributes nothing to the d-components of E and B, so on a one-dimensional grid Ex and Bx never change.", "quantifier": "all states and grids, any number of time steps", "why_tests_cant": "for all states and histories", "anchors": ["src/solver/maxwell.cpp: solve_rusanov_mp"]}
{"id": "C48", "title": "Lorentz force is exact and magnetic fields do no work", "statement": "The Lorentz solver adds q/m*(rho E + p x B) to the momentum and q/m*(p.E) to the energy right-hand side of every interior cell and changes nothing else; hence p . (momentum force) = rho * (energy rate), i.e. the magnetic part does no work.", "quantifier": "all grids, states, charge to mass ratios", "why_tests_cant": "algebraic identity and frame over all states", "anchors": ["src/solver/lorentz_force.cpp: low_order_solve_idx"]}
{"id": "C49", "title": "Current source is the summed current and energy is exchanged exactly", "statement": "The current source adds -sum_s q_s/(m_s eps0) p_s to the electric right-hand side of every interior cell and nothing else; together with the Lorentz solver eps0 E.dE/dt + sum_s d(energy_s)/dt = 0 in every cell.", "quantifier": "all numbers of species, grids and states", "why_tests_cant": "all species counts and states; cross-solver identity", "anchors": ["src/solver/current_source.cpp: fv_solve_idx", "src/solver/current_source.h: setup", "src/solver/lorentz_force.cpp"]}
{"id": "C50", "title": "Advection solver conserves and stays in bounds", "statement": "Each directional sweep of the advection solver reads and writes only inside the chunk for both signs of velocity, conserves the sum of all elements, and leaves constant interior data constant.", "quantifier": "all chunk shapes with at least the stencil width, velocities and contents", "why_tests_cant": "all shapes and velocities", "anchors": ["src/solver/ssprk2_advection.cpp: advection_iterate, advection_inout"]}
{"id": "C51", "title": "A periodic run conserves totals", "statement": "A simulation loop of the form used by the examples (periodic boundary, reset right-hand side, Maxwell, SSPRK3 stage, three stages, swap) never throws or hits undefined behaviour and keeps the sum of every field component over the interior constant, for any number of steps.", "quantifier": "all grids with at least as many cells as ghost layers in each dimension, all initial fields, all time steps and step counts, exact real arithmetic", "why_tests_cant": "whole-program invariant over unboundedly many steps", "anchors": ["src/example/maxwell/gaussian_pulse.cpp", "src/example/maxwell/wave_1D.cpp", "src/solver/bc_periodic.cpp", "src/solver/fill.cpp", "src/solver/maxwell.cpp", "src/solver/ssprk3.cpp", "src/solver/swap.cpp"]}
{"id": "C52", "title": "Exception assignment replaces the message and what() is usable", "statement": "After e1 = e2 both exceptions report the same message, and what() returns a string that stays valid while the exception lives.", "quantifier": "all messages and assignment histories", "why_tests_cant": "lifetime error; a run may print the right text by luck", "anchors": ["src/lib/exception.h: what, operator="]}
{"id": "C53", "title": "Grid stretching keeps the domain width", "statement": "Applying a symmetric or linear bias to a structured grid keeps the total width of the dimension equal to the grid width, and the centroids lie inside their cells.", "quantifier": "all grids, exponents and cell counts", "why_tests_cant": "real-valued identity; integer truncation shows only for non-integer widths", "anchors": ["src/grid/structured.cpp: bias_array, apply_bias_symmetric, apply_bias_linear, recalculate_xcs"]}
{"id": "C54", "title": "Shock tube initial states are piecewise uniform and thermodynamically consistent", "statement": "Every interior cell of the shock tube holds the left or right state selected by the sign of its position, with zero momentum and energy equal to pressure/(gamma-1), scaled by the given multipliers; ghost cells are not written.", "quantifier": "all grids, multipliers and interface positions", "why_tests_cant": "all grids and parameters", "anchors": ["src/solver/shock_tube.cpp: solve", "src/solver/brio_wu_shock_tube.cpp: solve"]}
{"id": "C55", "title": "Integrators reject unsuitable calls", "statement": "rk1 and ssprk3 either report or handle every call whose variables exist: an output that is also an input, a right-hand side of another shape, an unknown stage tag, and storage that is not aligned to 64 bytes do not lead to undefined behaviour or to a silently skipped stage.", "quantifier": "all manager states, variable lists, stage tags and storage alignments", "why_tests_cant": "undefined behaviour need not show in a test run; alignment depends on the allocator", "anchors": ["src/solver/ssprk3.cpp: solve, stage_0, stage_1, stage_2", "src/solver/rk1.cpp: solve, stage_0", "src/lib/parallelization.h:5-7"]}
{"id": "C56", "title": "Advection creates no new extremes", "statement": "With a Courant number of at most one half, a stage of the advection solver turns non-negative densities into non-negative densities.", "quantifier": "all non-negative fields, velocities and time steps within the Courant limit", "why_tests_cant": "needs the right neighbouring values next to a plateau", "anchors": ["src/solver/ssprk2_advection.cpp: advection_iterate"]}
{"id": "C57", "title": "The example programs run through and compute SSP-RK3 of the finite-volume system", "statement": "Started on any grid and fields whose shapes fit, the time loops of the Maxwell pulse, the Sod tube, the one-dimensional two-fluid shock tube and the GEM challenge end normally after any number of steps, and the unknowns are then exactly the result of applying the three-stage scheme to boundary condition, flux differences and source terms that many times.", "quantifier": "all grids, fields, parameters, time steps and step counts; any arithmetic", "why_tests_cant": "whole-program statement over unboundedly many steps, all grids and all data", "anchors": ["src/example/maxwell/gaussian_pulse.cpp", "src/example/euler/sod_shock_tube.cpp", "src/example/plasma/two_fluid_brio_wu.cpp", "src/example/plasma/gem_challenge.cpp"]}
{"id": "C58", "title": "A closed box keeps its mass and energy", "statement": "The Euler program with solid walls in some dimensions and periodic boundaries in the others keeps the total mass and the total energy of the gas; if every dimension is periodic, the momentum too.", "quantifier": "all grids of up to three dimensions, fields, time steps and step counts; exact real arithmetic", "why_tests_cant": "conservation over arbitrarily many steps and all states", "anchors": ["src/example/euler/sod_shock_tube.cpp", "src/solver/bc_no_slip.cpp", "src/solver/bc_periodic.cpp", "src/solver/euler.cpp", "src/solver/ssprk3.cpp"]}
{"id": "C59", "title": "The two-fluid programs keep electron mass, ion mass and magnetic flux", "statement": "In the GEM challenge and the two-fluid shock tube the total mass of each species and the totals of Bx, By and Bz do not change; in one dimension Bx stays as it is in every cell.", "quantifier": "all grids, fields, charge and mass parameters, time steps and step counts; exact real arithmetic", "why_tests_cant": "invariant of five coupled solvers over arbitrarily many steps", "anchors": ["src/example/plasma/gem_challenge.cpp", "src/example/plasma/two_fluid_brio_wu.cpp", "src/solver/bc_conducting_wall.cpp", "src/solver/current_source.cpp", "src/solver/lorentz_force.cpp"]}
{"id": "C60", "title": "The advection program keeps the total of the advected quantity", "statement": "With the loops run by one thread, the time loop of the advection example ends normally and keeps the total of every component, for any number of steps, provided the boundary solvers are set up with every dimension; the example as written must keep it too.", "quantifier": "all grids, fields, velocities, time steps and step counts; exact real arithmetic", "why_tests_cant": "conservation over arbitrarily many steps; the missing setup shows only near the boundary", "anchors": ["src/example/advection/advect_gaussian.cpp:160-173", "src/solver/ssprk2_advection.cpp", "src/solver/bc_periodic.cpp"]}
{"id": "C61", "title": "Electromagnetic wave initial condition is a wave", "statement": "On grids of up to three dimensions with the direction d of propagation among them, the wave initial condition leaves E = c B x n with n the unit vector along d, B the given amplitude times sin(k x_d) except its component along n, which is constant; between two such states the Maxwell flux is c times the left state, so the wave travels in direction +d. A direction the grid does not have is rejected.", "quantifier": "all grids, directions, wave numbers, amplitudes and speeds", "why_tests_cant": "vector identity for all parameters and cells", "anchors": ["src/solver/electromagnetic_wave_1D.cpp: solve", "src/solver/maxwell.cpp: solve"]}
{"id": "C62", "title": "The GEM current sheet is an equilibrium", "statement": "The GEM initial condition gives electrons and ions the same number density, isothermal pressures and a flow along dimension 2 only; with B0^2 = 2 mu0 n0 (Te+Ti) their current is the curl of the unperturbed field and the sum of gas and magnetic pressure is constant; the whole field is free of divergence; the perturbation has no component normal to the walls.", "quantifier": "all parameters, grids and cells", "why_tests_cant": "identities between real functions; a typing error in a constant changes the fifth digit or later", "anchors": ["src/solver/gem_challenge.cpp: solve", "src/example/plasma/gem_challenge.cpp"]}
{"id": "C63", "title": "Whole example programs compute what their parts say", "statement": "From an empty manager, the initial condition followed by any number of time steps of sod_shock_tube, wave_1D, two_fluid_brio_wu, harris_current_sheet and gem_challenge ends normally without undefined behaviour, and the unknowns are those the three stage Runge-Kutta method gives for the finite volume right-hand side started from the initial condition; mass, energy and magnetic flux at the end are those of the initial condition.", "quantifier": "all grids of the right dimension, parameters, step lengths and numbers of steps", "why_tests_cant": "unbounded number of steps, all parameters", "anchors": ["src/example/euler/sod_shock_tube.cpp", "src/example/maxwell/wave_1D.cpp", "src/example/plasma/two_fluid_brio_wu.cpp", "src/example/plasma/gem_challenge.cpp", "src/example/maxwell/gaussian_pulse.cpp", "src/example/advection/advect_gaussian.cpp"]}
{"id": "C64", "title": "print shows every cell and changes no value", "statement": "The print solver writes for each requested variable its name and one line per interior cell and component with the coordinates and the value, in row-major order, and changes no value of any variable; if all requested variables exist the manager is unchanged.", "quantifier": "all managers, variable lists and contents", "why_tests_cant": "all shapes and contents; a wrong region or order shows only for particular shapes", "anchors": ["src/solver/print.cpp: solve"]}
{"id": "C65", "title": "Assigning an indexer copies the traversal", "statement": "After a = b the indexer a has the same range, sub range, position, linear index and existence as b, so both walk through the same remaining cells; assigning an indexer to itself changes nothing.", "quantifier": "all ranges and sub ranges whose strides are ints, all histories of next, increment and decrement before the assignment", "why_tests_cant": "all shapes and all histories; the self assignment is undefined behaviour that need not show", "anchors": ["src/lib/indexer.cpp:66-78 operator="]}
{"id": "C66", "title": "Face basis setup", "statement": "face_basis::setup with one point per dimension gives a basis of num_dims points with one node and one weight; every other number of points per dimension is reported and leaves the basis as it was; calling setup again replaces the earlier nodes.", "quantifier": "all dimension counts, points per dimension with a representable product, and histories of setup calls", "why_tests_cant": "all arguments and call histories", "anchors": ["src/basis/face_basis.cpp:24-37 setup"]}
{"id": "C67", "title": "Whole-array copy between chunks", "statement": "full_copy between chunks with the same number of elements makes the k-th element of the target in row-major order equal to the k-th element of the source and leaves the range of the target alone; chunks with different numbers of elements are rejected with an exception and the target is unchanged.", "quantifier": "all shapes and contents", "why_tests_cant": "all shapes; a missing last element shows only where it is read", "anchors": ["src/data/functions.h:41-51 full_copy"]}
{"id": "C68", "title": "Threads do not change the results of the programs", "statement": "Compiled with OpenMP, every execution of the example programs ends, and ends in exactly the state the run on one thread ends in, bit for bit: no schedule of the parallel loops of any step races, faults, hangs or changes a value.", "quantifier": "all programs, meshes, states, numbers of steps, numbers of threads and interleavings of the memory operations of the parallel loops", "why_tests_cant": "interleavings cannot be enumerated and a race may stay invisible on the machine at hand", "anchors": ["src/solver/euler.cpp:60-210 solve_HLL_mp", "src/solver/maxwell.cpp:107-260 solve", "src/solver/ssprk3.cpp:64-104 stages", "src/solver/ssprk2_advection.cpp:41-66 advection_iterate", "src/example/plasma/gem_challenge.cpp:468-494"]}
{"id": "C69", "title": "Range checks of the debug build", "statement": "In the debug build every dimension number and index an indexer, a container or a grid does not have is reported by an exception before any memory outside its arrays is touched, and accepted arguments give what the release build gives.", "quantifier": "all shapes, histories of the indexer, dimension numbers and indices", "why_tests_cant": "an access one past the end usually goes unnoticed, and only particular arguments reach it", "anchors": ["CMakeLists.txt:38-39", "src/lib/indexer.cpp:45-107", "src/lib/indexer_interface.h:140-158", "src/grid/grid.cpp", "src/grid/rectilinear.cpp", "src/grid/structured.cpp"]}
{"id": "C70", "title": "Pointer walking source kernels agree with the indexed ones", "statement": "low_order_solve and fv_solve, the versions of the Lorentz force and current kernels that walk along the arrays with pointers, add to every interior cell what the indexed versions add, leave all other cells alone, and have no data race under OpenMP.", "quantifier": "all meshes, contents and interleavings", "why_tests_cant": "a missing last cell and a race depend on shape and schedule", "anchors": ["src/solver/lorentz_force.cpp:71-114 low_order_solve", "src/solver/current_source.cpp:44-73 fv_solve"]}
{"id": "C71", "title": "Free function advection", "statement": "The free function advection carries out the two stages of the advection scheme for velocities of either sign along the dimensions of the range: all accesses are inside the three arrays, the total is preserved, and the quantity moves along the dimension of its velocity.", "quantifier": "all ranges, velocities, time steps and contents", "why_tests_cant": "reads behind an array and exchanged dimensions show only for particular signs and shapes", "anchors": ["src/solver/ssprk2_advection.cpp:93-142 advection"]}
{"id": "C72", "title": "Resizing a dataset", "statement": "After resize a dataset is laid out for the new mesh, components and ghost layers with one chunk and is as if newly constructed with these arguments; the constructor with arguments is resize on blank members, and the default constructors give a dataset without mesh and chunks. sync reports that it does not work and changes nothing.", "quantifier": "all datasets with at most one chunk, meshes, bases, numbers of components and ghost layers", "why_tests_cant": "stale values and chunks depend on the shapes before and after", "anchors": ["src/data/dataset.cpp:17-82", "src/variable/variable.cpp:17-21"]}
{"id": "C73", "title": "Numbers in VTK files determine the values", "statement": "Two managers whose values differ write files that differ: the digits written for a double determine it.", "quantifier": "all doubles and all ways a library rounds to the nearest decimal", "why_tests_cant": "two neighbouring doubles among 2^64 have to be met", "anchors": ["src/variable/variable_manager.cpp:87"]}
{"id": "C74", "title": "The example programs write the files they should", "statement": "main and the example programs, run with the constants of the source, write frame_0.vtk, frame_1.vtk, ... in their directory, each with the unknowns after the right number of time steps, no file over another; if a file cannot be created the program reports that and has written the files before it.", "quantifier": "all arithmetics (doubles and exact), all sets of files that can be created", "why_tests_cant": "a full run takes hours, and which files can be created depends on the disk", "anchors": ["src/main.cpp:14-28", "src/example/euler/sod_shock_tube.cpp:38-240", "src/example/maxwell/wave_1D.cpp:35-225", "src/example/maxwell/gaussian_pulse.cpp:35-220", "src/example/advection/advect_gaussian.cpp:29-200", "src/example/plasma/two_fluid_brio_wu.cpp:36-450", "src/example/plasma/harris_current_sheet.cpp:39-540", "src/example/plasma/gem_challenge.cpp:39-525"]}
{"id": "C75", "title": "Every file of a run shows the conserved totals", "statement": "Reading any of the files of an example program back, the numbers in the column of a conserved quantity add up to the total of the initial condition: 562.5 and 1375 for the mass and energy of the shock tube, 512 for Bz of the wave and zero for the other components, 5.625 and 56.25 for the masses of the Brio-Wu plasma, zero for the magnetic flux of the current sheets, whose masses are those of the sheet; the fields a manager holds are determined by the manager.", "quantifier": "all files of all programs, exact arithmetic", "why_tests_cant": "the totals are blurred by rounding in a real run; the claim concerns every time step", "anchors": ["src/example/euler/sod_shock_tube.cpp:38-240", "src/example/maxwell/wave_1D.cpp:35-225", "src/example/plasma/two_fluid_brio_wu.cpp:36-450", "src/example/plasma/harris_current_sheet.cpp:39-540", "src/example/plasma/gem_challenge.cpp:39-525", "src/variable/variable_manager.cpp:60-130"]}
{"id": "C76", "title": "Moving the data moves the results", "statement": "Along a periodic dimension no cell is special: if the initial data of two runs differ by a shift around that dimension, so do the results, bit for bit; data that do not depend on a coordinate stay that way, so the two rows of sod_shock_tube are equal in every file and wave_1D depends on z only. In exact arithmetic a periodic dimension along which nothing changes may be left out: sod_shock_tube computes the one-dimensional shock tube.", "quantifier": "all data, shifts, numbers of steps, meshes, and all arithmetics (leaving out a dimension: exact arithmetic)", "why_tests_cant": "needs pairs of runs from arbitrary data compared bit for bit", "anchors": ["src/solver/bc_periodic.cpp: solve", "src/solver/euler.cpp: solve_HLL_mp", "src/solver/maxwell.cpp: solve_rusanov_mp", "src/example/euler/sod_shock_tube.cpp: sod_shock_tube", "src/example/maxwell/wave_1D.cpp: wave_1D", "src/example/plasma/gem_challenge.cpp: gem_challenge"]}
{"id": "C77", "title": "Nothing travels faster than the stencil", "statement": "What a run computes in a cell after n time steps depends, bit for bit, only on the initial data at most 6 n cells away along the dimensions, counted around periodic ones: data further away may be changed at will. In exact arithmetic gas at rest and uniform that far stays as it is, so in file k of sod_shock_tube all cells at least 30 k cells from the diaphragm show the initial state.", "quantifier": "all data, cells, numbers of steps and meshes, all arithmetics (gas at rest: exact arithmetic)", "why_tests_cant": "needs all pairs of runs whose data agree near a cell and differ arbitrarily elsewhere", "anchors": ["src/solver/euler.cpp: solve_HLL_mp", "src/solver/maxwell.cpp: solve_rusanov_mp", "src/solver/bc_periodic.cpp: solve", "src/solver/bc_no_slip.cpp: solve", "src/solver/bc_copy_out.cpp: solve", "src/solver/bc_conducting_wall.cpp: solve", "src/solver/lorentz_force.cpp", "src/solver/current_source.cpp", "src/example/euler/sod_shock_tube.cpp: sod_shock_tube"]}
{"id": "C78", "title": "The magnetic field stays free of sources", "statement": "If the divergence of B is zero in every cell at the start, it stays zero; the flux of B through every layer of cells normal to a dimension stays as it is.", "quantifier": "all fields, meshes, speeds of light and numbers of steps, exact arithmetic", "why_tests_cant": "a monopole of the size of a discretisation error looks like noise in any one run", "anchors": ["src/solver/maxwell.cpp: solve_rusanov_mp", "src/solver/bc_periodic.cpp: solve", "src/solver/bc_conducting_wall.cpp: solve", "src/example/maxwell/gaussian_pulse.cpp", "src/example/plasma/gem_challenge.cpp: gem_challenge"]}
{"id": "C79", "title": "The order of the axes does not matter", "statement": "If the axes of the mesh, and with them the components of the vectors, are put in another order, the results are those of the original problem with the axes in that order.", "quantifier": "all fields, meshes, spacings, walls, time steps and numbers of steps, exact arithmetic", "why_tests_cant": "needs two runs with meshes of another shape compared cell by cell; a slip in the fluxes along one axis only shows in problems that vary along it", "anchors": ["src/solver/euler.cpp: solve_HLL_mp", "src/solver/maxwell.cpp: solve_rusanov_mp", "src/spatial_solver/functions.h", "src/solver/bc_periodic.cpp: solve", "src/solver/bc_no_slip.cpp: solve"]}
{"id": "C80", "title": "Density and pressure stay positive", "statement": "From data with positive density and pressure in every cell, the density stays positive step after step as long as the time step is below the limit set by the fastest wave.", "quantifier": "all meshes, spacings, walls, fields, time steps and numbers of steps, exact arithmetic; the counterexamples also in doubles", "why_tests_cant": "a test sees one set of data; whether an extremum or a gradient of another set gives a negative density or pressure at a face, and from there NaN everywhere, needs the reconstruction to be analysed for all data", "anchors": ["src/solver/euler.cpp: solve_HLL_mp", "src/spatial_solver/functions.h", "src/solver/ssprk3.cpp: solve", "src/example/euler/sod_shock_tube.cpp: sod_shock_tube", "src/example/plasma/gem_challenge.cpp: gem_challenge"]}
{"id": "C81", "title": "The scheme is accurate for smooth data", "statement": "For smooth data the values reconstructed on the two sides of a face are those of the data at the face, up to a multiple of the square of the cell width, and the right-hand sides of Maxwell's equations and of the equations of gas dynamics are those of the differential equations, up to a multiple of the cell width.", "quantifier": "all twice differentiable data, cell widths, meshes of up to three dimensions and beyond, speeds of light, exact arithmetic; every face of the initial state of the current sheet programs", "why_tests_cant": "a test measures the order for one function and a few cell widths; that the limiter loses the order nowhere, at extrema neither, but loses it for data much smaller than 1e-12, needs a bound for all data", "anchors": ["src/spatial_solver/functions.h", "src/solver/maxwell.cpp: solve_rusanov_mp", "src/solver/euler.cpp: solve_HLL_mp", "src/example/plasma/gem_challenge.cpp: gem_challenge", "src/example/plasma/harris_current_sheet.cpp: harris_current_sheet"]}
{"id": "C82", "title": "The results do not depend on the units", "statement": "Describing the same state in other units of mass, length and time gives the same results in those units: the fluxes of the gas and of the electromagnetic field, the values reconstructed at the faces, and the states after any number of steps.", "quantifier": "all states, units and directions of the fluxes; all data, grids, boundary kinds, time steps and numbers of steps for units of length and time that keep the speeds; exact arithmetic", "why_tests_cant": "a test compares a few runs in one pair of units, usually with numbers near 1; a constant with a hidden dimension shows only for numbers of its own size", "anchors": ["src/solver/euler.cpp: solve_HLL_mp", "src/solver/maxwell.cpp: solve_rusanov_mp", "src/spatial_solver/functions.h", "src/solver/lorentz_force.cpp: solve", "src/solver/current_source.cpp: solve", "src/example/plasma/gem_challenge.cpp: gem_challenge"]}
{"id": "C83", "title": "A gas in equilibrium stays in equilibrium", "statement": "A gas with the same pressure everywhere and no velocity stays so: in a run of the programs momenta stay exactly zero and energies exactly constant while densities that differ from cell to cell spread, between walls and on rings, and the same holds for both fluids of a plasma without fields, whose fields stay zero. With one velocity everywhere the gas is only carried along.", "quantifier": "all meshes of up to three dimensions at least two cells wide, all densities, energies, time steps and numbers of steps for which the densities at the walls between cells stay positive; exact arithmetic for the gas at rest", "why_tests_cant": "a test shows a few densities and small currents that look like rounding; that the momenta are zero needs the two fluxes of every wall of every cell at every stage to cancel", "anchors": ["src/solver/euler.cpp: solve_HLL_mp", "src/spatial_solver/functions.h", "src/solver/bc_no_slip.cpp: solve", "src/solver/bc_periodic.cpp: solve", "src/solver/ssprk3.cpp: solve", "src/example/euler/sod_shock_tube.cpp", "src/example/plasma/gem_challenge.cpp: gem_challenge"]}
{"id": "C84", "title": "The electric field keeps in step with the charge", "statement": "Gauss's law: if the divergence of the electric field equals the charge of the fluids at the start of a run of the two-fluid shock program, it does so afterwards.", "quantifier": "all initial data, plasmas, numbers of steps, lengths of the step and cells of the tube next to which there is a cell on both sides; exact arithmetic for the amount by which the law is missed", "why_tests_cant": "the charge is a small difference of large densities and a test sees a field that looks plausible; how much the law is missed by is a sum over all steps and stages of a difference between two ways to say how much mass moves", "anchors": ["src/solver/current_source.cpp: solve", "src/solver/euler.cpp: solve_HLL_mp", "src/solver/maxwell.cpp: solve_rusanov_mp", "src/solver/ssprk3.cpp: solve", "src/example/plasma/two_fluid_brio_wu.cpp", "src/example/plasma/harris_current_sheet.cpp", "src/example/plasma/gem_challenge.cpp"]}
{"id": "C85", "title": "Oscillations of a plasma do not grow", "statement": "In a uniform part of a plasma without magnetic field, field and current of each direction swing at the plasma frequency. A step of the two-fluid programs on a line and in a plane multiplies the square of the amplitude by 1 - z^4/12 + z^6/36, z being the frequency times the length of the step, so that the oscillation does not grow if z is at most the square root of 3 and grows if it is larger; the steps and the constants of the programs are on the safe side for up to 27 times the largest number density two_fluid_brio_wu starts with, and up to 2*10^19 and 2*10^18 particles of each kind per cubic metre in harris_current_sheet and gem_challenge, which is more than 20000 and 2000 times what they start with. Densities do not change.", "quantifier": "all plasmas with two fluids, all uniform states, all numbers of steps, all lengths of the step, all cells further from the walls and from other states than six cells per step; exact arithmetic", "why_tests_cant": "a test observes a few oscillations with a few time steps; that the amplitude is bounded for any number of steps needs the factor of one step exactly", "anchors": ["src/solver/current_source.cpp: fv_solve_idx", "src/solver/current_source.h: setup", "src/solver/lorentz_force.cpp: solve", "src/solver/ssprk3.cpp: solve", "src/example/plasma/two_fluid_brio_wu.cpp", "src/example/plasma/harris_current_sheet.cpp", "src/example/plasma/gem_challenge.cpp"]}
{"id": "C86", "title": "Small differences stay small", "statement": "If the electric and magnetic fields of two runs of wave_1D or gaussian_pulse differ in the beginning by at most k (the electric fields by at most k times the speed of light c), then after n steps of length dt they differ by at most g^n (k + e) - e, where g is the cube of 1 + 20 dt c times the sum of the inverse cell widths and e is 1e-12 times the larger of 1 and 1/c. The values at the walls between cells differ by at most 5 (k + 1e-12), and not always by an amount that goes to zero with k.", "quantifier": "all meshes, all data, all numbers of steps, all time steps, all cell widths and all speeds of light; exact arithmetic", "why_tests_cant": "tests compare a few pairs of runs; the bound has to hold for the limiter, which is neither linear nor continuous, at every cell and in every step", "anchors": ["src/solver/maxwell.cpp: solve_rusanov_mp", "src/solver/ssprk3.cpp: solve", "src/spatial_solver/functions.h", "src/example/maxwell/wave_1D.cpp: wave_1D", "src/example/maxwell/gaussian_pulse.cpp: gaussian_pulse"]}
{"id": "C87", "title": "Mirrored fields give mirrored results", "statement": "If the fields of a second run of wave_1D or gaussian_pulse are in the beginning the mirror image, along any axis, of the fields of the first run, then after every number of steps they are again the mirror image, up to the tolerance and growth of C86; in a mirror image the cells are in the opposite order, the electric field along the axis is reversed and so is the magnetic field across it.", "quantifier": "all meshes, all of the first three axes, all data, all numbers of steps, all time steps, cell widths and speeds of light; exact arithmetic", "why_tests_cant": "a bug in one of the six flux components or on one side of a wall shows up in a mirrored run, but a test sees it only for the data and the axis it uses", "anchors": ["src/solver/maxwell.cpp: solve_rusanov_mp", "src/solver/ssprk3.cpp: solve", "src/solver/bc_periodic.cpp: solve", "src/example/maxwell/wave_1D.cpp: wave_1D"]}
{"id": "C88", "title": "Waves of any strength travel alike", "statement": "If the fields of a second run of wave_1D or gaussian_pulse are in the beginning a times the fields of the first run, a being any number, then after every number of steps they are again a times those fields, up to the growth of C86 and the tolerance times the mean of 1 and the absolute value of a.", "quantifier": "all factors, all meshes, all data, all numbers of steps, all time steps, cell widths and speeds of light; exact arithmetic", "why_tests_cant": "Maxwell's equations are linear but the limiter is not; that it respects factors is a statement about all data", "anchors": ["src/solver/maxwell.cpp: solve_rusanov_mp", "src/solver/ssprk3.cpp: solve", "src/spatial_solver/functions.h", "src/example/maxwell/wave_1D.cpp: wave_1D"]}
{"id": "C89", "title": "In doubles the totals change only by rounding", "statement": "For periodic runs of wave_1D, gaussian_pulse and sod_shock_tube with rounding after every operation: if the values in the cells at the stages of all steps are numbers up to B and the fluxes divided by the cell width numbers up to Q, the sum over all cells of each component of the field (of mass, momentum and energy of the gas) after n steps differs from the sum in the beginning by at most n times the number of cells times 120 units of rounding, 2^-53, of B + dt Q (plus 50 units of underflow). The two fluxes that should cancel do cancel: there is no drift other than that of the operations in the cell itself.", "quantifier": "all meshes up to three dimensions, all data, all numbers of steps, all time steps, cell widths, speeds of light and gamma; IEEE double arithmetic", "why_tests_cant": "tests see sums that change in the last digits and cannot tell rounding from a small leak; the bound separates the two", "anchors": ["src/solver/maxwell.cpp: solve_rusanov_mp", "src/solver/euler.cpp: solve_HLL_mp", "src/solver/ssprk3.cpp: solve", "src/solver/bc_periodic.cpp: solve", "src/example/maxwell/wave_1D.cpp: wave_1D", "src/example/euler/sod_shock_tube.cpp: sod_shock_tube"]}
{"id": "C90", "title": "Fields that are numbers stay numbers", "statement": "If in the beginning the electromagnetic fields of wave_1D or gaussian_pulse are numbers of moderate size, they are numbers after every number of steps as long as the bound on their growth is below 2^300: no infinity and no NaN appears.", "quantifier": "all meshes up to three dimensions, all data, all numbers of steps, all time steps, cell widths and speeds of light; IEEE double arithmetic", "why_tests_cant": "NaN appears for single pairs of neighbouring values out of 2^128, which no test hits unless it knows them", "anchors": ["src/solver/maxwell.cpp: solve_rusanov_mp", "src/spatial_solver/functions.h", "src/solver/ssprk3.cpp: solve", "src/example/maxwell/wave_1D.cpp: wave_1D"]}
{"id": "C91", "title": "Each fluid of the current sheet is in balance by itself", "statement": "In the state that the initial condition of gem_challenge and harris_current_sheet writes, leaving aside the perturbation of the field, the electrons and the ions are each in balance: neither flows across the sheet, the derivative of the pressure of each across the sheet is the Lorentz force on it (not only that of the sum of the two), there is no force in the other directions and the field does no work.", "quantifier": "all parameters, all meshes up to three dimensions, all cells; exact arithmetic", "why_tests_cant": "the two fluids could have the right total current and still be pulled apart; a run shows this only as slow changes", "anchors": ["src/solver/gem_challenge.cpp: solve", "src/solver/lorentz_force.cpp: solve", "src/example/plasma/gem_challenge.cpp: gem_challenge", "src/example/plasma/harris_current_sheet.cpp: harris_current_sheet"]}
{"id": "C92", "title": "The constants of the current sheet make it an equilibrium", "statement": "With the constants in gem_challenge and harris_current_sheet the sum of the pressures of both fluids and of the field is the same everywhere across the sheet, and the current of the two fluids is that of the curl of the field, so that the electric field stays zero.", "quantifier": "all positions across the sheet, all lengths of the sheet; exact arithmetic", "why_tests_cant": "whether constants given with nine digits fit together is a statement about exact numbers", "anchors": ["src/example/plasma/gem_challenge.cpp: gem_challenge", "src/example/plasma/harris_current_sheet.cpp: harris_current_sheet", "src/solver/gem_challenge.cpp: solve"]}
{"id": "C93", "title": "The computed field is the exact field up to a rounding error", "statement": "wave_1D and gaussian_pulse run in doubles and the same program run in real numbers from fields that differ by at most k give after n steps fields that differ by at most the n-th power of the growth times k, the tolerance of the limiter and the sum of the rounding errors of the stages, as long as no divisor of the limiter is zero and the values are far from overflow.", "quantifier": "all meshes of one to three dimensions, all sizes, all fields, all speeds of light, time steps and numbers of steps", "why_tests_cant": "rounding errors pass through the limiter, which is not Lipschitz near equal values; tests compare with tolerances chosen by eye, and the exact program cannot be run", "anchors": ["src/solver/maxwell.cpp: solve_rusanov_mp", "src/spatial_solver/functions.h", "src/solver/ssprk3.cpp: solve", "src/example/maxwell/wave_1D.cpp: wave_1D"]}
{"id": "C94", "title": "A variable that could not be created leaves no trace", "statement": "If the constructor of a new variable throws, the variable manager is as it was before, and a later request of the same variable behaves like the first one.", "quantifier": "all managers, all ids and all later requests, for both orders in which the two sides of an assignment may be evaluated", "why_tests_cant": "which side of the assignment is evaluated first is up to the compiler before C++17, so a test sees one order only; the failure shows up in a later call", "anchors": ["src/variable/variable_manager.cpp: add_variable", "src/variable/variable_manager.cpp: output_variable", "src/variable/variable_manager.cpp: input_variable", "src/variable/variable.cpp: variable"]}
{"id": "C95", "title": "The motion of a magnetised plasma gains no energy", "statement": "In a uniform part of a plasma in an electric and a magnetic field, the energy of the flow of the two fluids and of the electric field never grows, and one step of the two-fluid programs on a line or in a plane loses at most the part z^4/12 of it, if z, the sum of a bound of the cyclotron frequencies and of a bound of the plasma frequency times the length of the step, is at most the square root of 3. Densities and magnetic field do not change. The constants and steps of the programs satisfy the condition for up to 20 times the largest number density and magnetic fields up to 100 in two_fluid_brio_wu, and up to 7*10^18 and 7*10^17 particles of each kind per cubic metre and fields up to a tenth of a tesla in harris_current_sheet and gem_challenge.", "quantifier": "all charges, masses and permittivities, all uniform states with positive densities, all electric and magnetic fields, all numbers of steps, all cells further from the walls and from other states than six cells per step; exact arithmetic", "why_tests_cant": "turning around the magnetic field and swinging at the plasma frequency mix into motions of any direction and phase; a test follows a few of them for a few steps, while a growing one may hide in any other direction", "anchors": ["src/solver/lorentz_force.cpp: solve", "src/solver/lorentz_force.h: setup", "src/solver/current_source.cpp: fv_solve_idx", "src/solver/current_source.h: setup", "src/solver/ssprk3.cpp: solve", "src/example/plasma/two_fluid_brio_wu.cpp", "src/example/plasma/harris_current_sheet.cpp", "src/example/plasma/gem_challenge.cpp"]}
{"id": "C96", "title": "A uniform plasma keeps its energy and is not heated by the time stepping", "statement": "In a uniform part of a plasma in an electric and a magnetic field, one step of the two-fluid programs on a line or in a plane changes the energy of both fluids and of the electric field by at most z^4/4 times the energy of the motion (of twice the flow and the field), where z is the sum of a bound of the cyclotron frequencies and of a bound of the plasma frequency times the length of the step and is at most the square root of 3. What is not energy of motion, the heat of the fluids, sinks by no more than that and grows by at most 7/24 z^4 times that energy in each step. With the constants and steps of two_fluid_brio_wu, up to the densities and magnetic fields it starts with, these are 31 and 36 parts in 10000; with those of harris_current_sheet and gem_challenge, up to 10^15 particles of each kind per cubic metre and 3 mT, they are 12 and 14 parts in 10^9 and in 10^7.", "quantifier": "all charges, masses and permittivities, all uniform states with positive densities, all electric and magnetic fields, all steps of nonnegative length and all numbers of steps, all cells further from the walls and from other states than six cells per step; exact arithmetic", "why_tests_cant": "the work of the field enters the energy of the fluids in one solver and is taken from the field by another one; a wrong factor in either heats or cools the plasma slowly, which a test with some tolerance does not tell from the error of the time stepping", "anchors": ["src/solver/lorentz_force.cpp: solve", "src/solver/lorentz_force.h: setup", "src/solver/current_source.cpp: fv_solve_idx", "src/solver/current_source.h: setup", "src/solver/ssprk3.cpp: solve", "src/example/plasma/two_fluid_brio_wu.cpp", "src/example/plasma/harris_current_sheet.cpp", "src/example/plasma/gem_challenge.cpp"]}
{"id": "C97", "title": "The motion of a uniform plasma is that of the equations of motion up to third order", "statement": "In a uniform part of a plasma in an electric and a magnetic field, the two-fluid programs on a line or in a plane follow every exact solution of the equations of motion (force of Lorentz on both fluids, currents of both fluids in the law of Amp\u00e8re) that starts with the momenta and the electric field of the cell: after n steps the difference, measured as the square root of the energy it would have, is at most n z^4/24 times that of the motion at the start, where z is the sum of a bound of the cyclotron frequencies and of a bound of the plasma frequency times the length of the step and is at most the square root of 3. There is exactly one such solution. For a given time the error is of the third order in the length of the step. With the constants and steps of two_fluid_brio_wu, up to the densities and magnetic fields it starts with, it is 52 parts in 100000 for each step; with those of harris_current_sheet and gem_challenge, up to 10^15 particles of each kind per cubic metre and 3 mT, it is 2 parts in 10^9 and in 10^7.", "quantifier": "all charges, masses and permittivities, all uniform states with positive densities, all electric and magnetic fields, all exact solutions, all steps of nonnegative length and all numbers of steps, all cells further from the walls and from other states than six cells per step; exact arithmetic", "why_tests_cant": "a test compares with a known solution for some states and times, and a wrong sign or factor in one component of the force is only seen by states that excite it; the order of convergence needs ever smaller steps", "anchors": ["src/solver/lorentz_force.cpp: solve", "src/solver/lorentz_force.h: setup", "src/solver/current_source.cpp: fv_solve_idx", "src/solver/current_source.h: setup", "src/solver/ssprk3.cpp: solve", "src/example/plasma/two_fluid_brio_wu.cpp", "src/example/plasma/harris_current_sheet.cpp", "src/example/plasma/gem_challenge.cpp"]}
{"id": "C98", "title": "A neutral plasma and its field keep their momentum", "statement": "In a uniform part of a plasma in which the charges of the two fluids cancel, the momentum of both fluids together with that of the electromagnetic field (the permittivity times the vector product of the electric and the magnetic field) does not change at all, whatever the length and the number of the time steps of the two-fluid programs on a line or in a plane. With the constants of two_fluid_brio_wu, harris_current_sheet and gem_challenge all states with the same number of electrons and ions are of this kind.", "quantifier": "all charges, masses and permittivities, all uniform states whose charges cancel, all electric and magnetic fields, all lengths and numbers of steps, all cells further from the walls and from other states than six cells per step; exact arithmetic", "why_tests_cant": "a wrong sign in one component of the force or of the current is balanced in many states; the claim covers every direction of field and flow and steps of every length", "anchors": ["src/solver/lorentz_force.cpp: solve", "src/solver/lorentz_force.h: setup", "src/solver/current_source.cpp: fv_solve_idx", "src/solver/current_source.h: setup", "src/solver/ssprk3.cpp: solve", "src/example/plasma/two_fluid_brio_wu.cpp", "src/example/plasma/harris_current_sheet.cpp", "src/example/plasma/gem_challenge.cpp"]}
{"id": "C99", "title": "Calls with unsuitable variables are reported", "statement": "The Euler and the Maxwell solver with another number than one input and one output variable, and the Brio-Wu initial condition with another number than three outputs, throw an exception that tells which list is wrong, whatever the schedule of the threads, and change nothing. Variables that are not cell averages are not exported: the writer of a variable reports that and writes nothing, the manager reports it after the first three lines of the file.", "quantifier": "all manager states, lists of ids, parameters, schedules and arithmetics", "why_tests_cant": "lists of all lengths and all states of the manager; that nothing changes concerns every value of every variable", "anchors": ["src/solver/euler.cpp: solve", "src/solver/maxwell.cpp: solve", "src/solver/brio_wu_shock_tube.cpp: solve", "src/grid/rectilinear.cpp: write_vtk", "src/variable/variable.cpp: write_vtk", "src/variable/variable_manager.cpp: write_vtk"]}
