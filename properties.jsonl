{"id": "C01", "title": "Rational arithmetic is exact and results are in canonical sign/lowest-terms form", "statement": "Adding, subtracting, multiplying or dividing two rational numbers gives exactly the mathematical result; the result's denominator is positive, and numerator and denominator are coprime whenever the numerator is nonzero. Building a rational with denominator zero, or dividing by a rational equal to zero, throws invalid_argument and nothing else does. This holds as long as no intermediate product leaves the int range.", "quantifier": "every pair of rationals that the public constructors and operators can produce", "why_tests_cant": "The reduction loop is a binary gcd whose correctness needs an inductive argument over all pairs of ints; a test samples a handful of fractions.", "anchors": ["src/core_rational.hpp: rational_number_t ctor, operator+,-,*,/, reduce, gcd"]}
{"id": "C02", "title": "Rational comparisons agree with the mathematical order", "statement": "x<y, x>y, x<=y and x>=y return the truth of the corresponding relation between the exact values. x==y returns true exactly when the values are equal and, if the value is zero, the two representations have the same denominator; so equality by value fails only at zero (0/5 != 0/1).", "quantifier": "every pair of rationals with positive denominator and no int overflow in the cross products", "why_tests_cant": "A total-order claim quantifies over all pairs; the zero exception is only found by looking for it.", "anchors": ["src/core_rational.hpp: operator==, <, >, <=, >=, reduce"]}
{"id": "C03", "title": "The Runge-Kutta step counter stays an exact integer", "statement": "Averaging the step counters of the first and last stage with the weights the solver uses (b0 and 1-b0) yields a rational that is integral, so reading it back as an integer never throws, after any number of steps, and it equals the number of steps taken; with first and second order stepping mixed in any way.", "quantifier": "every starting counter and every number and mixture of RK1/RK2 steps within int range", "why_tests_cant": "It is an invariant over unbounded run histories; a non-integral counter would throw in the middle of a run when the log line is printed.", "anchors": ["src/core_rational.hpp: operator*, operator+, as_integral", "src/subprog_binary.cpp: next_solution", "src/subprog_cloud.cpp: next_solution"]}
{"id": "C04", "title": "Quadtree/octree addresses: child, parent and neighbour moves are mutually inverse", "statement": "For every address, each of its 2^D children has the address as parent, the 2^D children are distinct and every address with that parent is among them; moving one cell forward and then backward along an axis (with periodic wrap) returns to the same address; and child, parent and neighbour moves of an in-range address are in range.", "quantifier": "every dimension, level and coordinate vector, every axis", "why_tests_cant": "Quantified over unbounded levels and coordinates and over the wrap-around boundary cases.", "anchors": ["src/core_tree.hpp: tree_index_t::valid, parent_index, child_indexes, relative_to_parent, next_on, prev_on"]}
{"id": "C05", "title": "Every leaf of a tree can be found by its own address", "statement": "The tree of addresses has the same shape as the tree itself; all leaf addresses are in range and pairwise distinct; looking up the address of the n-th leaf returns the value of the n-th leaf; and the number of leaves equals size().", "quantifier": "every tree of any dimension, depth and shape", "why_tests_cant": "Inductive claim over all tree shapes; tests build two or three trees.", "anchors": ["src/core_tree.hpp: indexes, at, node_at, sink, size"]}
{"id": "C06", "title": "The leaves tile the domain", "statement": "Every in-range address at a level at least as deep as the tree lies below exactly one leaf (exactly one leaf address is an ancestor-or-self of it), and an in-range address at any level names a node of the tree, or lies strictly below exactly one leaf.", "quantifier": "every tree and every in-range address", "why_tests_cant": "A coverage and disjointness claim over all addresses and shapes.", "anchors": ["src/core_tree.hpp: indexes, contains_node, node_at, tree_index_t::valid"]}
{"id": "C07", "title": "Membership tests agree with lookups, and where they are undefined is known exactly", "statement": "For an in-range address that does not name a branch, contains() is true exactly when at() returns a value, contains_node() is true exactly when node_at() returns a node, and the two lookups throw out_of_range or a variant access error exactly otherwise. Asking contains() for an address that names a branch shifts by a negative amount, which is undefined behaviour.", "quantifier": "every tree and every in-range address", "why_tests_cant": "All shapes times all addresses; undefined behaviour is invisible to a passing test.", "anchors": ["src/core_tree.hpp: contains, contains_node, at, find, node_at, orthant"]}
{"id": "C08", "title": "Inserting a leaf makes it readable and disturbs nothing else", "statement": "If insert(address, value) succeeds then looking up the address gives the value, and every other leaf of the original tree whose address is not an ancestor of the new one keeps its value at its address. Insertion fails exactly when the target node is a branch or the address is out of range.", "quantifier": "every tree, address and value", "why_tests_cant": "All trees and addresses; includes the path-creating case that fills siblings with default values.", "anchors": ["src/core_tree.hpp: insert, at"]}
{"id": "C09", "title": "A tree written leaf by leaf is rebuilt exactly, in any order", "statement": "Starting from an empty default tree and inserting every (address, value) pair of a tree, in any order at all, rebuilds the identical tree; so reading a tree back from a file does not depend on the order in which the file lists its entries.", "quantifier": "every tree and every permutation of its leaves", "why_tests_cant": "Factorially many insertion orders for every tree shape.", "anchors": ["src/core_tree.hpp: insert, indexes", "src/app_serialize_tree.hpp: write_tree, read_tree"]}
{"id": "C10", "title": "Tree addresses survive the round trip through their text names", "statement": "Formatting an in-range address as text and parsing the text gives the address back, so two different addresses never share a name, at every level for which the field-width computation is defined.", "quantifier": "every in-range address of every dimension and every level below 31", "why_tests_cant": "Unbounded set of addresses; name collisions would silently lose blocks of a checkpoint.", "anchors": ["src/app_serialize_tree.hpp: format_tree_index, read_tree_index"]}
{"id": "C11", "title": "Mapping and pairing trees preserve shape, order and composition", "statement": "Mapping a function changes values only (same shape, same leaf order), mapping the identity is the identity, mapping twice is mapping the composition; combining two trees succeeds exactly when their shapes are the same, and then acts leaf by leaf; otherwise it throws and returns nothing.", "quantifier": "every tree, function and pair of trees", "why_tests_cant": "Universally quantified over functions and shapes.", "anchors": ["src/core_tree.hpp: map, binary_op, pair, apply"]}
{"id": "C12", "title": "Tree updates and refinements touch only what they name", "statement": "update(address, f) replaces exactly the leaf at the address; refining leaves that satisfy a predicate leaves all other leaves at their address with their value, and each refined leaf is replaced by its 2^D children values; size grows by (2^D-1) per refined leaf.", "quantifier": "every tree, predicate, splitting function and address", "why_tests_cant": "All shapes, predicates and functions.", "anchors": ["src/core_tree.hpp: update, bifurcate_if, bifurcate_all, tree_of"]}
{"id": "C13", "title": "Mesh balancing terminates and yields a balanced mesh", "statement": "Balancing a quadtree of any depth terminates; afterwards no leaf has a side neighbour (with periodic wrap) that is more than one level finer; the result only refines the input (each original leaf is kept or subdivided); the maximum depth is unchanged; and balancing a balanced mesh changes nothing.", "quantifier": "every quadtree", "why_tests_cant": "Termination and the global invariant are over all trees; a unit test balances one example.", "anchors": ["src/mesh_tree_operators.hpp: over_refined_neighbors, ensure_valid_quadtree"]}
{"id": "C14", "title": "The Hilbert index orders the cells of a level without collisions", "statement": "Different in-range addresses of the same level receive different Hilbert indexes.", "quantifier": "every level and every pair of in-range addresses", "why_tests_cant": "Injectivity over all pairs at all levels.", "anchors": ["src/core_tree.hpp: hilbert_index"]}
{"id": "C15", "title": "Every task given to the thread pool runs exactly once, in FIFO start order", "statement": "Under any interleaving of producers and workers, no task is started twice, tasks are started in the order they were enqueued, and no worker exits while a task is waiting; when the pool has stopped and all workers have exited, every enqueued task has run to completion exactly once.", "quantifier": "every number of workers, every set of tasks and every interleaving (including spurious wakeups)", "why_tests_cant": "Depends on schedules that a test cannot force.", "anchors": ["src/core_thread_pool.hpp: enqueue, enqueue_internal, next, complete, restart, stop_all"]}
{"id": "C16", "title": "Stopping the thread pool always terminates", "statement": "After the destructor or restart asks the workers to stop, every worker eventually exits, so joining them returns.", "quantifier": "every interleaving of the stopping thread with the workers", "why_tests_cant": "A lost wakeup occurs only in a window of a few instructions.", "anchors": ["src/core_thread_pool.hpp: stop_all, next"]}
{"id": "C17", "title": "Parallel tree map equals sequential map on every schedule", "statement": "Mapping a tree by submitting one job per leaf and collecting the results gives the tree that the sequential map gives, whatever order the jobs execute in.", "quantifier": "every tree, pure function and execution order of the jobs", "why_tests_cant": "Quantifies over schedules.", "anchors": ["src/core_tree.hpp: map(thread_pool), map(async)", "src/core_thread_pool.hpp: enqueue"]}
{"id": "C18", "title": "Recurring tasks do not drift", "statement": "For a task with fixed interval T, the recorded last-performed time is always the start time plus an integer multiple of T; and if no time step is longer than T, the current time never gets T or more plus one step ahead of it, so the n-th output happens at the first step at or after n*T. With longer steps it advances by at most one interval per step.", "quantifier": "every sequence of (nonnegative) time steps and every positive interval", "why_tests_cant": "History-dependent; quantifies over all step sequences.", "anchors": ["src/app_schedule.hpp: mark_as_due, mark_tasks_in", "src/subprog_binary.cpp: next_schedule"]}
{"id": "C19", "title": "Due tasks run exactly once, in the given order, and others never", "statement": "Running the scheduled tasks calls each listed task that is due exactly once, in list order, each on the state produced by the previous one, and calls no task that is not due; whether a task is due is decided before any of them runs, and afterwards every task that ran is no longer due and its counter has grown by one.", "quantifier": "every schedule, task list with distinct registered names and task behaviour that leaves the schedule alone", "why_tests_cant": "Quantifies over schedules and task functions.", "anchors": ["src/app_schedule.hpp: run_scheduled_tasks, complete_task_in, mark_as_completed, is_due"]}
{"id": "C20", "title": "A run resumed from a binary checkpoint continues exactly like the uninterrupted run", "statement": "For the binary subprogram: the state read back from the checkpoint file written at any step equals the in-memory state that the run continued with, including the schedule, so the resumed run goes through the same states and produces the same outputs with the same file numbers.", "quantifier": "every run history and every step at which a checkpoint was written", "why_tests_cant": "Quantifies over crash points and histories.", "anchors": ["src/subprog_binary.cpp: run_tasks, next_state, create_schedule", "src/app_serialize.hpp: write_schedule, read_schedule", "src/subprog_binary_io.cpp: write_checkpoint"]}
{"id": "C21", "title": "Resuming never overwrites the checkpoint it came from", "statement": "For the boilerplate, sedov and cloud subprograms: a run resumed from checkpoint number k writes its next checkpoint under a number greater than k, and outputs that were due when the checkpoint was taken are still produced.", "quantifier": "every run history and every checkpoint", "why_tests_cant": "Only shows after a crash at the right moment.", "anchors": ["src/subprog_boilerplate.cpp: run_tasks, write_checkpoint", "src/subprog_cloud.cpp: run_tasks, write_checkpoint", "src/subprog_sedov.cpp: run_tasks, write_checkpoint, create_run_config"]}
{"id": "C22", "title": "A run configuration keeps the template's keys and types under every update", "statement": "Whatever sequence of updates (from strings or typed values) is applied, the configuration has exactly the template's keys with the template's types; an update naming an unknown key, or a value of another type, throws and has no effect; reading a key gives the last value set, or the template default.", "quantifier": "every template and every sequence of updates", "why_tests_cant": "Invariant over unbounded operation sequences.", "anchors": ["src/app_config.hpp: config_t::get, set, update, config_template_t::item, create"]}
{"id": "C23", "title": "Command-line arguments are parsed into key/value pairs without loss", "statement": "Each argument containing '=' contributes the pair split at the first '='; arguments without '=' are ignored; the call throws exactly when two arguments have the same key; otherwise the map has exactly these pairs, irrespective of argument order.", "quantifier": "every argument vector", "why_tests_cant": "All strings, including several '=' signs and empty keys or values.", "anchors": ["src/app_config.hpp: argv_to_string_map"]}
{"id": "C24", "title": "Splitting and joining paths are inverse", "statement": "Joining the parts of a split path gives the path back, for every string; splitting the join of nonempty slash-free parts gives the parts back.", "quantifier": "every string and every list of parts", "why_tests_cant": "All strings, including leading, trailing and repeated slashes.", "anchors": ["src/app_filesystem.hpp: split, join"]}
{"id": "C25", "title": "Parent and extension of a path", "statement": "The parent of dir/name is dir when name has no slash; the extension of a path whose last component contains a dot is the part from the last dot; a path whose last component has no dot has no extension.", "quantifier": "every directory and name string", "why_tests_cant": "All strings; the failing case needs a dot in a directory name.", "anchors": ["src/app_filesystem.hpp: parent, extension"]}
{"id": "C26", "title": "Prime factorisation is correct", "statement": "For every number of at least 2 the factor list consists of primes whose product is the number.", "quantifier": "every int of at least 2 for which the trial square does not overflow", "why_tests_cant": "Number-theoretic claim over all ints.", "anchors": ["src/app_parallel.hpp: factor_once, prime_factors_impl, prime_factors"]}
{"id": "C27", "title": "Proposed process grids use every process", "statement": "The proposed block counts along the axes multiply to exactly the number of processes, for every rank of grid, and each is at least one.", "quantifier": "every process count of at least 2 and every grid rank", "why_tests_cant": "All integers.", "anchors": ["src/app_parallel.hpp: propose_block_decomposition"]}
{"id": "C28", "title": "Domain decomposition tiles the global index space", "statement": "The blocks produced for a decomposition partition the global index space: each global index belongs to exactly one block; along each axis block sizes differ by at most one; and the call throws exactly when there are more blocks than cells along some axis.", "quantifier": "every global shape and block count of every rank", "why_tests_cant": "All shapes times all decompositions; off-by-one errors show up only for particular remainders.", "anchors": ["src/app_parallel.hpp: create_access_pattern_array", "src/core_ndarray.hpp: divvy, partition_shape"]}
{"id": "C29", "title": "Multi-threaded evaluation equals single-threaded evaluation, without data races", "statement": "Evaluating a lazy array on P threads writes every element of the result exactly once when P does not exceed the number of rows, and gives the values of the lazy array; no element is written by two threads.", "quantifier": "every array shape, thread count and interleaving", "why_tests_cant": "Race freedom is a statement about all interleavings.", "anchors": ["src/app_parallel.hpp: evaluate_on", "src/core_ndarray.hpp: partition_shape, access_pattern_t::begin"]}
{"id": "C30", "title": "Row-major offsets are a bijection onto the buffer", "statement": "Distinct in-range indexes of a shape have distinct memory offsets, all offsets are below the number of elements, and every position of the buffer is the offset of an in-range index.", "quantifier": "every rank and shape", "why_tests_cant": "All shapes and indexes.", "anchors": ["src/core_ndarray.hpp: make_strides_row_major, memory_strides_t::compute_offset"]}
{"id": "C31", "title": "Iterating over a shape visits each index exactly once, in row-major order", "statement": "For a shape without zero extents, iteration visits every in-range index exactly once, in increasing memory order, and nothing else. With a zero extent in a shape of rank two or more the iteration visits indexes although the shape holds no elements.", "quantifier": "every rank and shape", "why_tests_cant": "All ranks and shapes; the carry logic has many cases.", "anchors": ["src/core_ndarray.hpp: access_pattern_t::advance, begin, end, iterator"]}
{"id": "C32", "title": "Strided selections map indexes one-to-one and invertibly", "statement": "For a selection (start, final, jumps) with start<final: the number of selected positions per axis is the number of stops start, start+jump, ... below final; mapping an in-range index and mapping back gives the index; a parent index is generated exactly when it is the image of an in-range index; if the selection is accepted as lying within the parent then every image is in range of the parent.", "quantifier": "every rank, start, final and jump", "why_tests_cant": "All strides and remainders.", "anchors": ["src/core_ndarray.hpp: access_pattern_t::shape, map_index, inverse_map_index, contains, generates, within"]}
{"id": "C33", "title": "Materialising a lazy array preserves every element and stays in bounds", "statement": "Evaluating a lazy array into memory gives an array with the same shape and the same element at every index, and every write is inside the buffer.", "quantifier": "every lazy array of every rank whose extents are nonzero", "why_tests_cant": "All arrays.", "anchors": ["src/core_ndarray.hpp: evaluate_as_unique, make_unique_provider, buffer_t"]}
{"id": "C34", "title": "Selecting, concatenating and replacing obey the array laws", "statement": "Selecting a region of a concatenation gives back each part; an array equals the concatenation of its head and tail on any axis; after replacing a region by an array, reading inside the region gives the replacement and outside gives the original; mismatched shapes throw and nothing else does.", "quantifier": "every array, axis, split position and region", "why_tests_cant": "All ranks, axes and positions.", "anchors": ["src/core_ndarray.hpp: concatenator_t, replacer_t, selector_t, axis_selector_t"]}
{"id": "C35", "title": "Differences telescope: periodic flux differencing conserves the total", "statement": "The sum of the differences of an array along an axis is last minus first; in particular, differencing the fluxes of a periodically extended array sums to zero, so one advection step conserves the total of the field exactly (in exact arithmetic).", "quantifier": "every array and flux function", "why_tests_cant": "All fields and sizes.", "anchors": ["src/core_ndarray_ops.hpp: difference_on_axis, extend_periodic_on_axis, zip_adjacent2_on_axis", "src/subprog_boilerplate.cpp: next_solution"]}
{"id": "C36", "title": "Partitioning a shape or an array into N parts is exact and even", "statement": "The parts are contiguous, in order, disjoint and cover everything; their sizes differ by at most one.", "quantifier": "every extent and number of parts", "why_tests_cant": "All remainders.", "anchors": ["src/core_ndarray.hpp: partition_shape, divvy"]}
{"id": "C37", "title": "The element count of a shape", "statement": "The reported element count of a shape is the product of its extents whenever that product fits an int, and otherwise is that product reduced to an int; so a shape with 2^32 elements reports zero.", "quantifier": "every shape", "why_tests_cant": "Arrays of more than 2^31 elements cannot be built in a test.", "anchors": ["src/core_ndarray.hpp: shape_t::volume"]}
{"id": "C38", "title": "Evenly spaced generators", "statement": "linspace(a,b,n) with n>=2 has n elements, starts at a, ends at b and has equal spacing; arange(a,b,step) has the elements a, a+step, ... below b.", "quantifier": "every endpoints, counts and steps", "why_tests_cant": "All remainders.", "anchors": ["src/core_ndarray.hpp: linspace, arange"]}
{"id": "C39", "title": "Restriction after prolongation is the identity, and restriction conserves", "statement": "Averaging down a mesh that was just refined returns the original values, for vertex and cell data in 1, 2 and 3 dimensions; summing down conserves the total and averaging down conserves the mean for even extents.", "quantifier": "every array of even extents, every axis", "why_tests_cant": "All arrays.", "anchors": ["src/mesh_prolong_restrict.hpp: prolong_cells, prolong_verts, restrict_cells, restrict_extrinsic, restrict_verts, coarsen_*"]}
{"id": "C40", "title": "Splitting a block into children and recombining", "statement": "Combining the 2^D refined children of a block gives the prolonged block; bisecting a block and combining the halves gives the block; wrong parities throw and nothing else does.", "quantifier": "every block and axis", "why_tests_cant": "All block contents and sizes.", "anchors": ["src/mesh_prolong_restrict.hpp: refine_*, combine_verts, combine_cells, bisect_verts, bisect_cells"]}
{"id": "C41", "title": "The slope limiter is total-variation safe", "statement": "The limited slope is zero at local extrema, has the sign of the centred difference otherwise, is bounded by theta times each one-sided difference and by the centred difference, commutes with negation and with reversal, is unaffected by adding a constant, and is exact on linear data for theta>=1; so for theta<=2 face values lie between neighbouring cell averages.", "quantifier": "every triple of reals and every theta", "why_tests_cant": "All real inputs, including ties and zeros.", "anchors": ["src/math_interpolation.hpp: plm_gradient"]}
{"id": "C42", "title": "Quadratic/cubic/quartic solvers report exactly the real roots", "statement": "Every value reported as a real root is a root of the polynomial, and every real root of the polynomial is among the reported values (exact arithmetic).", "quantifier": "every real coefficients with nonzero leading coefficient", "why_tests_cant": "All coefficients, including degenerate (multiple-root) cases.", "anchors": ["src/math_polynomial.hpp: cubic_roots, quartic_roots, parabola_vertex"]}
{"id": "C43", "title": "Linked lists are persistent and leak-free", "statement": "No operation changes the contents of any other list; the lists observe exactly the list algebra (prepend/head/tail/append/concat/reverse/size/equality); every node is released when and only when the last list reaching it is gone, and never twice.", "quantifier": "every sequence of list operations and destructions with arbitrary sharing", "why_tests_cant": "Quantifies over operation sequences and sharing patterns.", "anchors": ["src/core_linked_list.hpp: linked_list_t"]}
{"id": "C44", "title": "Fixed-size matrices form a ring with identity", "statement": "Matrix product is associative, distributes over sums, and the identity matrix is a two-sided unit, for all compatible sizes; equality and inequality are complementary and mean elementwise equality; a product of column vectors with matrices agrees with the product of matrices.", "quantifier": "every size and every element ring", "why_tests_cant": "All sizes and entries.", "anchors": ["src/core_matrix.hpp: matrix_product, identity_matrix, operator==, !=, +"]}
{"id": "C45", "title": "Sequences behave like fixed-length vectors", "statement": "Setting or updating an element changes only that element, and with an index out of range leaves the sequence unchanged; at() out of range throws; reverse is an involution; head and tail, init and last, append, prepend and concat satisfy the list laws; transposing twice is the identity; sum/all/any/min/max are the folds.", "quantifier": "every sequence of every length", "why_tests_cant": "All lengths and contents.", "anchors": ["src/core_sequence.hpp: covariant_sequence_t"]}
{"id": "C46", "title": "Powers of dimensional quantities carry the right units", "statement": "Raising a quantity to the power N/D gives a quantity whose length, mass and time exponents are N/D times the original ones.", "quantifier": "every exponent triple and every N, D that passes the compile-time check", "why_tests_cant": "Template parameters range over all ints.", "anchors": ["src/core_dimensional.hpp: dimensional_value_t::pow"]}
{"id": "C47", "title": "Direction vectors are normalised", "statement": "The squared components of a constructed direction sum to one.", "quantifier": "every nonzero triple of components", "why_tests_cant": "All triples.", "anchors": ["src/core_geometric.hpp: unit_vector_t"]}
{"id": "C48", "title": "Gas dynamics: conserved and primitive states convert back and forth exactly", "statement": "For the Euler and isothermal systems, recovering primitives from the conserved densities of a physical state gives the state back, and conversely; linear-momentum and angular-momentum forms of the isothermal conserved state convert back and forth at every nonzero radius.", "quantifier": "every physical state (positive density and pressure), every gamma, every position", "why_tests_cant": "All real states.", "anchors": ["src/physics_euler.hpp: to_conserved_density, recover_primitive", "src/physics_iso2d.hpp: to_conserved_per_area, to_conserved_angmom_per_area, recover_primitive"]}
{"id": "C49", "title": "The HLLE solvers are consistent, upwinding and mirror symmetric", "statement": "With equal left and right states the interface flux is the physical flux; with all signals moving right (left) it is the left (right) physical flux; mirroring the problem mirrors the flux. For Euler, isothermal and relativistic systems.", "quantifier": "every pair of physical states and every axis direction", "why_tests_cant": "All pairs of states.", "anchors": ["src/physics_euler.hpp: riemann_hlle", "src/physics_iso2d.hpp: riemann_hlle", "src/physics_srhd.hpp: riemann_hlle"]}
{"id": "C50", "title": "The characteristic decomposition of the Euler equations is correct", "statement": "The left and right eigenvector matrices are inverses of each other, and the flux Jacobian times each right eigenvector is the eigenvalue times that vector.", "quantifier": "every state with positive density and pressure and gamma>1", "why_tests_cant": "All real states.", "anchors": ["src/physics_euler.hpp: eigensystem, flux_jacobian, eigenvalues, left_eigenvectors, right_eigenvectors"]}
{"id": "C51", "title": "Relativistic signal speeds never exceed the speed of light", "statement": "The fastest left- and right-moving signal speeds of every physical relativistic state lie strictly between -1 and 1, are ordered, and bracket the flow speed.", "quantifier": "every state with positive density and pressure, 1<gamma<=2, every gamma-beta and direction", "why_tests_cant": "All real states, including extreme Lorentz factors.", "anchors": ["src/physics_srhd.hpp: wavespeeds, sound_speed_squared"]}
{"id": "C52", "title": "Two-body orbits conserve what they should", "statement": "The computed two-body state has masses adding to the total mass with the given ratio, its center of mass at rest where the elements put it, and exactly the energy and angular momentum of the orbit, whatever the tolerance of the Kepler solver; the separation stays between periapsis and apoapsis. With Kepler's equation solved exactly the trajectory obeys Newton's law of gravity, and the computed positions differ from it by at most a*1e-10/(1-e).", "quantifier": "every bound orbit (0<=e<1, positive masses and separation), every time, every orientation and center-of-mass motion", "why_tests_cant": "All elements and phases.", "anchors": ["src/model_two_body.hpp: compute_two_body_state, orbital_energy, orbital_angular_momentum, total_energy, separation"]}
{"id": "C53", "title": "Flux correction makes the adaptive mesh update conservative", "statement": "With corrected fluxes at refinement boundaries, the flux leaving a coarse cell through a face shared with finer cells equals the sum of the fluxes entering the finer cells, so the total of every conserved quantity changes only through domain boundaries and source terms.", "quantifier": "every mesh configuration of two neighbouring blocks, block size and flux field", "why_tests_cant": "All meshes and fields.", "anchors": ["src/subprog_binary_scheme.cpp: correct_fluxes_xl/xr/yl/yr, block_update_u", "src/mesh_prolong_restrict.hpp: restrict_extrinsic"]}
{"id": "C54", "title": "Guard-zone filling is consistent", "statement": "Asking for the cells of any in-range address returns a block of the standard size whose cells are, depending on what the tree holds there, the block itself, the restriction of the finer blocks, or the part of the coarser block that covers it; a uniform field stays uniform.", "quantifier": "every balanced tree with uniform block size and every in-range address", "why_tests_cant": "All tree shapes and addresses.", "anchors": ["src/mesh_tree_operators.hpp: get_cell_block, get_vertex_block"]}
{"id": "C55", "title": "Gather and scatter of variable-length data are inverse", "statement": "Scattering variable-length pieces and gathering them returns the pieces in rank order, with displacements equal to the running totals of the counts.", "quantifier": "every number of ranks and all piece lengths, including zero", "why_tests_cant": "All rank counts and lengths.", "anchors": ["src/core_mpi.hpp: scatterv, all_gatherv"]}
{"id": "C56", "title": "Strings survive the round trip through the file", "statement": "A string written to a file and read back is unchanged.", "quantifier": "every string", "why_tests_cant": "All strings including the empty one.", "anchors": ["src/core_hdf5.hpp: hdf5_type_info<std::string>, Location::write, read", "src/app_serialize.hpp: write_config, read_config"]}
{"id": "C57", "title": "Command line beats restart file beats default", "statement": "When a run is restarted, each option has the value given on the command line, or else the value stored in the restart file, or else the template's default; and a configuration read back from the file it was written to is the same configuration.", "quantifier": "every template, every stored configuration and every command line", "why_tests_cant": "There are unboundedly many templates and combinations of stored and given options; tests only try a few.", "anchors": ["src/app_config.hpp:76-141", "src/app_serialize.hpp:100-123", "src/subprog_binary.cpp:155-164"]}
{"id": "C58", "title": "Numbered output files are distinct and sort by number", "statement": "Outputs with different counts go to different files, and sorting the file names sorts the outputs by count.", "quantifier": "every prefix, extension and pair of counts", "why_tests_cant": "Quantifies over all counts and prefixes; the failing counts are beyond what a test run writes.", "anchors": ["src/app_serialize.hpp:183-188"]}
{"id": "C59", "title": "require_dir makes the directory and its ancestors, in order", "statement": "require_dir asks for every ancestor directory of the path before the directory itself, and the last directory it makes is the path.", "quantifier": "every path string", "why_tests_cant": "All strings, including absolute paths, empty components and trailing slashes.", "anchors": ["src/app_filesystem.hpp:137-146", "src/app_filesystem.hpp:89-107"]}
{"id": "C60", "title": "The Roe average of two Euler states linearises the flux difference", "statement": "The Roe average is symmetric, gives back equal states, lies between the two states, and A(Q)(Ur-Ul) = F(Ur)-F(Ul) as documented.", "quantifier": "every pair of states with positive density, every gamma>1", "why_tests_cant": "The unit test uses two states without axis velocity, for which the identity holds by accident.", "anchors": ["src/physics_euler.hpp: roe_average, flux_jacobian"]}
{"id": "C61", "title": "HLLE updates keep the gas physical", "statement": "A cell of a one-dimensional mesh updated with the HLLE fluxes to its two neighbours keeps positive density (and, for the Euler equations, positive pressure; for the relativistic equations an admissible energy) when the time step is no longer than the cell width over the sum of the outermost signal speeds entering the cell.", "quantifier": "all triples of physical states, every direction, every step within the limit", "why_tests_cant": "All triples of states, including near-vacuum and ultra-relativistic ones.", "anchors": ["src/physics_euler.hpp: riemann_hlle, recover_primitive", "src/physics_iso2d.hpp: riemann_hlle, recover_primitive", "src/physics_srhd.hpp: riemann_hlle"]}
{"id": "C62", "title": "The HLLC solver is a correct three-wave solver", "statement": "riemann_hllc never throws, gives back the exact flux of equal states, resolves isolated contacts (and shear) exactly, builds four states that satisfy the jump conditions across its three waves with positive middle densities, evaluates the region that contains the face, and is symmetric under swapping sides and mirroring.", "quantifier": "every pair of states with positive density, every pair of positive sound speeds, every planar unit normal", "why_tests_cant": "The unit tests compare a handful of states; wave ordering depends on all of density ratio, Mach number and sound-speed ratio.", "anchors": ["src/physics_iso2d.hpp:522-593", "src/physics_iso2d.hpp:610-687", "src/physics_iso2d.hpp:704-712"]}
{"id": "C63", "title": "Relativistic primitive recovery returns the gas it was given", "statement": "srhd::recover_primitive applied to the conserved state of a physical gas either throws or returns that gas: the true pressure is the only zero of the iterated residual, any result has density and pressure within a few tolerances of the true ones, moves in the same direction, has positive density and pressure not below the floor, and a static gas comes back exactly.", "quantifier": "every density, pressure, four-velocity and adiabatic index above 1, every temperature floor, every number of iterations actually taken", "why_tests_cant": "The recovery is an iteration with an absolute tolerance; a finite table of states cannot show that no accepted iterate is far from the root.", "anchors": ["src/physics_srhd.hpp:364-451", "src/physics_srhd.hpp:213-227"]}
{"id": "C64", "title": "Geometric source terms and signal speeds are those of the equations", "statement": "The spherical source terms of the Euler and relativistic gases are exactly the ones that keep every uniform flow steady in spherical coordinates; the angular-momentum source does the same in the plane; the maximum wavespeed bounds every signal across a grid face; the isothermal Roe average linearises the flux jump.", "quantifier": "every uniform flow, every point off the axis, every state and sound speed, every face normal", "why_tests_cant": "A source term is right only if it balances the divergence of the flux for a continuum of states and angles.", "anchors": ["src/physics_euler.hpp:298-337", "src/physics_srhd.hpp:306-346", "src/physics_iso2d.hpp:277-285", "src/physics_iso2d.hpp:330-337", "src/physics_iso2d.hpp:436-471"]}
{"id": "C65", "title": "Orbital elements and two-body states convert back and forth", "statement": "Every bound counter-clockwise state of two positive masses is turned into elements that reproduce exactly that state at that time; unbound states are rejected with an exception; elements turned into a state and back keep orbit and center-of-mass motion, and for eccentric orbits the orientation and the time of periapsis (up to whole turns and periods and the solver tolerance).", "quantifier": "every two-body state and every set of elements of a bound orbit", "why_tests_cant": "Continuum of states with trigonometric and square-root branches, including circular orbits.", "anchors": ["src/model_two_body.hpp: compute_orbital_elements, compute_two_body_state"]}
{"id": "C66", "title": "Evaluating an orbit terminates and is periodic", "statement": "The Kepler solver and the time-shift loop terminate for every time; the state repeats exactly after each orbital period; at the time of periapsis the bodies are at distance a(1-e) in the direction of the argument of periapsis, moving perpendicular to it.", "quantifier": "every orbit with e<=0.9 and every time (termination); every bound orbit (the rest)", "why_tests_cant": "Unbounded loops over all real times.", "anchors": ["src/model_two_body.hpp: solve_newton_rapheson, compute_two_body_state, orbital_period, wrap, clamp"]}
{"id": "C67", "title": "Differences of orbital elements", "statement": "Adding the difference of two sets of elements to the first describes the same binary as the second; angle and time differences are reduced to the nearest representative; the fractional change of the semi-major axis is the derivative of the semi-major axis under changes of masses and velocities; the mean anomaly is zero at periapsis.", "quantifier": "every pair of elements / states", "why_tests_cant": "Continuum of elements; derivative statement.", "anchors": ["src/model_two_body.hpp: diff, operator+, operator-, delta_a_over_a, mean_anomaly"]}
{"id": "C68", "title": "The mesh of vertex blocks is a balanced, regular tiling refined where asked", "statement": "For every refinement criterion, block size and depth, creating the vertex quadtree succeeds and gives a balanced tree no deeper than asked, in which every block holds the vertices of the uniform grid of its level on the given square (so neighbouring blocks share vertices exactly). Cell centres are the middles of the cells, every cell area is the square of its level's side, and the areas sum to the area of the square. If the criterion is no easier to meet at finer levels, exactly the coarsest balanced mesh is made in which every block that meets it (with all blocks around it) is refined.", "quantifier": "every predicate, every block size from 1, every depth up to 30, every domain radius", "why_tests_cant": "Predicates are arbitrary functions; refinement and balancing interact over unboundedly many trees.", "anchors": ["src/mesh_tree_operators.hpp: create_vertex_quadtree, ensure_valid_quadtree", "src/subprog_binary.cpp: create_vertices", "src/subprog_binary_solver_data.cpp: cell_centers, cell_areas"]}
{"id": "C69", "title": "One step of the disk scheme conserves what the mesh holds, whatever the physics is", "statement": "On every mesh that create_vertices can build, with any primitive variables, conserved densities and source terms in its cells, and for any Riemann solver, viscosity and gradient limiter, advance_u and advance_q complete (no missing neighbour, shape mismatch or undefined read) and the sum over all cells of density times area changes by exactly the sum of the sources minus the time step times the net flux through the edge of the domain. If the flux does not distinguish opposite edges of the domain, only the sources change the total. In the angular momentum conserving variant this always holds for the angular momentum component: blocks exchange exactly what they lose, at every level jump, and nothing passes the edge of the domain.", "quantifier": "all refinement criteria, depths up to 30, block sizes, domain radii, cell contents, gradient functions, flux functions and time steps", "why_tests_cant": "The agreement of fluxes computed independently by neighbouring blocks depends on guard zones, gradients and face positions of every mesh topology and state; runs only check a few meshes to rounding.", "anchors": ["src/subprog_binary_scheme.cpp:131-155", "src/subprog_binary_scheme.cpp:196-325", "src/subprog_binary_scheme.cpp:471-610", "src/subprog_binary_scheme.cpp:787-945"]}
{"id": "C70", "title": "A run of the disk program never holds a negative density and always stays on its mesh", "statement": "Starting from a valid solution (cell data on every block of the mesh, no negative density), every solution next_solution returns, after any number of steps, with either time-stepping order, in both schemes and through repeated steps in safe mode, again has the shape of the mesh and no negative density, and the unused tree of conserved variables stays empty.", "quantifier": "all meshes, configurations, initial solutions and step counts", "why_tests_cant": "The invariant concerns every state reachable under any configuration, including the failure-and-retry path that ordinary tests never enter.", "anchors": ["src/subprog_binary.cpp:258-293", "src/subprog_binary_scheme.cpp:726-1100"]}
{"id": "C71", "title": "Angular momentum of disk, bodies, gravity and buffer is conserved over a whole run", "statement": "With conserve_linear_p=0, the angular momentum of the disk plus what the solution books as accreted on both bodies, as integrated torque of gravity on both bodies and as ejected through the buffer is the same number in every solution of a run: for every mesh, both orders of time stepping, all viscosity, sound speed, sink, softening and buffer parameters, and when steps are repeated in safe mode.", "quantifier": "all meshes, configurations with conserve_linear_p=0, valid initial solutions and step counts", "why_tests_cant": "Ledgers are updated in several places from independently computed sums; a mismatch in any term or level jump shows only as a small drift in particular configurations.", "anchors": ["src/subprog_binary_scheme.cpp:417-466", "src/subprog_binary_scheme.cpp:906-1021", "src/subprog_binary_scheme.cpp:1033-1069", "src/subprog_binary.cpp:258-293"]}
{"id": "C72", "title": "Mass of disk, bodies and buffer is conserved over a whole run", "statement": "With axisymmetric_cs2=1 and no density floor, disk_mass plus the mass booked as accreted on both bodies and as ejected through the buffer is the same in every solution of a run, in both schemes; with a density floor the total never falls. disk_mass and disk_angular_momentum return the exact sums over all cells. With axisymmetric_cs2=0 (the default) the sum is not kept: there is a run without sinks, buffer, floor and viscosity that loses mass through the periodic edge.", "quantifier": "all meshes, configurations with axisymmetric_cs2=1, valid initial solutions and step counts", "why_tests_cant": "Holds for all meshes, parameters and states at once; single runs cannot tell a leak from rounding.", "anchors": ["src/subprog_binary_scheme.cpp:345-411", "src/subprog_binary_scheme.cpp:787-904", "src/subprog_binary_diagnostics.cpp:18-42"]}
{"id": "C73", "title": "Accretion is one-way and time advances within the promised bounds", "statement": "In a run each body's booked accreted mass never decreases and time never goes back. With fixed_dt=1, n steps advance time by at most n times the recommended step and at least a tenth of that.", "quantifier": "all runs with non-negative sink rate, recommended step and cfl number", "why_tests_cant": "Quantifies over all states and over failed steps that are repeated with a tenth of the step.", "anchors": ["src/subprog_binary.cpp:258-293", "src/subprog_binary_scheme.cpp:345-466"]}
{"id": "C74", "title": "The adaptive time step keeps every signal within cfl_number cell widths", "statement": "maximum_timestep is the smallest, over all cells of all blocks, of cell width over the largest signal speed along the axes, so next_solution's step moves no axis-aligned signal by more than cfl_number cell widths. It can be used in both schemes.", "quantifier": "all meshes, states and configurations", "why_tests_cant": "A universally quantified bound over cells, levels and states.", "anchors": ["src/subprog_binary_scheme.cpp:1107-1126", "src/subprog_binary.cpp:258-293"]}
{"id": "C75", "title": "Uniform flow stays uniform on refined meshes", "statement": "On every adaptively refined mesh, with constant primitive data and a flux that does not depend on position for constant data, a step changes each cell by its source alone: guard zones, gradients, prolongation and flux correction introduce nothing at level jumps. In the disk program, gas of one density and velocity changes its density in each cell only by sinks, buffer and floor there, whatever sound speed, viscosity and gravity do.", "quantifier": "all meshes, constant states, fluxes, sources and time steps", "why_tests_cant": "Free-stream preservation must hold at every level jump geometry; tests check a few meshes.", "anchors": ["src/subprog_binary_scheme.cpp:131-155", "src/subprog_binary_scheme.cpp:265-320", "src/subprog_binary_scheme.cpp:471-720"]}
{"id": "C76", "title": "The live binary keeps its mass and momentum accounts", "statement": "In the binary disk program, each body's accreted mass grows by exactly the gas its sink removes. The total mass in the orbital elements grows by exactly the mass booked as accreted on the two bodies once the binary is live, and not before: until begin_live_binary the orbital elements stay the initial ones. While live, the centre of mass drifts with its velocity, shifts towards the body that accretes, and its velocity changes by the gravitational impulse of the gas divided by the mass plus the accreted momentum (or, without accretion force, by mass accreted at the body's own velocity). Gravity alone never changes the binary's mass.", "quantifier": "all mesh trees, all gas states with non-negative densities, all bound orbits, all sink rates and softening radii, both conserved-variable schemes, all step sizes and numbers of steps, first and second order time stepping, all failed-and-retried steps", "why_tests_cant": "A test sees one run and compares with a tolerance; a lost or doubly booked contribution of the order of the accretion rate is far below any tolerance of a short run, and the statement is about every run.", "anchors": ["src/subprog_binary_scheme.cpp:787-904", "src/subprog_binary_scheme.cpp:906-1021", "src/model_two_body.hpp:492-583", "src/subprog_binary.cpp:258-293"]}
{"id": "C77", "title": "A power-law atmosphere holds the mass it says", "statement": "For every power-law atmosphere with inner radius r0 > 0 and cutoff radius rc >= r0, the mass within the cutoff equals the volume integral of density_at between r0 and rc (including the special exponent 3), the mass beyond the cutoff is the limit of the volume integrals beyond rc, and total_mass is their sum; total_mass throws exactly when the outer exponent is at most 3, in which case the mass really is infinite. The density is continuous across the cutoff. with_total_mass returns an atmosphere whose total_mass is the asked mass.", "quantifier": "all inner and cutoff radii, all coefficients, all real inner and outer exponents, all asked masses", "why_tests_cant": "The statement is an identity between a closed form and an improper integral for a five-parameter family, with a removable singularity at one exponent; tests compare at a few points within a quadrature tolerance.", "anchors": ["src/model_atmosphere.hpp:91-150"]}
{"id": "C78", "title": "The expanding envelop: shells hold their mass and the root finder finds them", "statement": "In the relativistic envelop model the shell between mass coordinates m and m+dm holds, in the lab frame, exactly the mass dm at every time: 4 pi r^2 gamma rho |dr/dm| = 1; radii decrease with the mass coordinate and stay inside the light cone. For every radius reached by a shell of mass at least m1 the secant iteration of mass_coordinate ends with a mass whose radius agrees to 1e-10 in log10. velocity_at is r/t up to that tolerance in the envelop and the cloud velocity inside.", "quantifier": "all envelop parameters with positive u1, m1 and 0 < psi (psi <= 1/2 for the root finder), all masses, all positive times, all radii between the cloud boundary and the envelop boundary", "why_tests_cant": "Termination of an uncapped secant iteration for every starting radius and mass conservation of every shell are universally quantified over reals.", "anchors": ["src/model_atmosphere.hpp:57-80", "src/model_atmosphere.hpp:155-281"]}
{"id": "C79", "title": "The jet nozzle injects the energy it is asked for", "statement": "For a jet with structure exponent 2 the luminosity per steradian of both jets, integrated over solid angle and time, gives the asked total energy Ej up to the Gaussian and exponential tails: exactly with the small-angle solid angle, and between Ej(1 - qj^2/6) and Ej with the true one. For other exponents the error is of the order of ten percent, as documented. The density at the base times gamma_beta^2 r0^2 c^3 is the luminosity per steradian.", "quantifier": "all positive energies, Lorentz factors, durations, opening angles and radii; all cone angles and end times", "why_tests_cant": "An identity between a double integral and a closed form over a family with five real parameters; the size of the error for other exponents is about all of them.", "anchors": ["src/model_jet_nozzle.hpp:55-128"]}
{"id": "C80", "title": "The explosion program loses mass and energy only through its outer face", "statement": "In the spherical explosion program, Newtonian or relativistic, a run of any number of steps changes the total mass and the total energy of the shells exactly by what the gas of the outermost shell carries through the outer face: nothing enters at the reflecting inner face and the geometric source terms hold no mass and no energy. The grid does not move, and each step advances the time by 0.4 times the width of the first shell.", "quantifier": "all grids and numbers of shells, all initial contents, all numbers of steps; both systems of equations", "why_tests_cant": "A telescoping identity over every state and every number of cells and steps; the wall flux vanishes only through a mirror symmetry of the Riemann solver that tests see on sample states.", "anchors": ["src/subprog_sedov.cpp:217-250", "src/subprog_sedov.cpp:394-421", "src/subprog_sedov.cpp:636-644"]}
{"id": "C81", "title": "A gas at rest with uniform pressure stays at rest in the explosion program", "statement": "If every shell holds a gas at rest with the same density and pressure, a step of the explosion program changes nothing: the difference of the pressure on the two faces of a shell is balanced by the geometric source term.", "quantifier": "all grids, all positive densities and pressures; both systems of equations", "why_tests_cant": "Whether discrete source and flux cancel exactly is an algebraic identity in all grids; a test sees a small residual and calls it round-off.", "anchors": ["src/subprog_sedov.cpp:394-421", "src/physics_euler.hpp:328-337", "src/physics_srhd.hpp:339-348"]}
{"id": "C82", "title": "Grid and time step of the explosion program", "statement": "A new explosion run has nr zones per decade, evenly spaced in the logarithm of the radius up to outer_radius, at rest, with the explosion between r = 0.5 and r = 1 and a power-law ambient gas outside. The time step is 0.4 times the smallest shell width, and in a step no signal crosses a shell.", "quantifier": "all outer radii above 1, all resolutions, all explosion densities and pressures, all gas states; both systems of equations", "why_tests_cant": "The causality bound ranges over all states and grids, and the count of zones over all real radii.", "anchors": ["src/subprog_sedov.cpp:56-71", "src/subprog_sedov.cpp:348-383", "src/subprog_sedov.cpp:404-405"]}
{"id": "C83", "title": "No shell of the explosion program is emptied in a step", "statement": "If all signals are slower than light and every shell holds mass, every shell still holds mass after a step of the explosion program, provided the outer radius of each shell is less than (5 + sqrt 21)/2 = 4.79 of its inner radius.", "quantifier": "all grids with shells at least as wide as the first one, all states; both systems of equations", "why_tests_cant": "Positivity must hold for every state and grid; the admissible ratio of radii comes out of an inequality, not of samples.", "anchors": ["src/subprog_sedov.cpp:394-421"]}
{"id": "C84", "title": "any, all, min, max and where look at every element", "statement": "For an array of any rank and shape, any is true exactly if some element is, all exactly if every element is, min and max return an element that no other element is below (above), and where returns exactly the indexes of the true elements, each once, in row-major order, never writing outside the slots it counted. On an array of length 0 any is false, all is true, where is empty and min is a value-initialised number.", "quantifier": "all ranks, shapes and contents (where: at most 2^31-1 elements)", "why_tests_cant": "The loops range over arbitrary shapes; where counts first and writes later, so memory safety is an invariant over all contents.", "anchors": ["src/core_ndarray.hpp:1909-1935", "src/core_ndarray.hpp:1975-2021", "src/core_ndarray.hpp:2035-2053"]}
{"id": "C85", "title": "The shock locator finds the steepest entropy drop, the pressure peak behind it and the plateau ahead of it", "statement": "find_shock_index returns the first cell i at which the entropy drops most between cells i and i+1. find_index_of_maximum_behind returns a cell r at or behind the given one such that the values rise strictly from the given cell to r and not beyond; it ends, and never reads outside the array. find_index_of_pressure_plateau_ahead returns the first cell ahead at which the logarithmic pressure slope is at least half of the one before it.", "quantifier": "all arrays of at least two cells, all contents, all starting cells", "why_tests_cant": "Termination of the scans and their out-of-range exits depend on unsigned wrap-around for arbitrary contents.", "anchors": ["src/post_shock_locator.hpp:71-81", "src/post_shock_locator.hpp:97-113", "src/post_shock_locator.hpp:149-172"]}
{"id": "C86", "title": "The time series of the explosion program", "statement": "The time series of the explosion program reports as shock_radius the radius of the face across which the entropy drops most, the cell centres up- and downstream, the vertex of the parabola through the velocities around the downstream cell, and the velocity that solves the jump condition for the mass between the two cells; it can be computed for every state.", "quantifier": "all grids, all states, both systems of equations", "why_tests_cant": "The definedness claim is about all states; off-by-one faces differ from the right ones by one cell width, which vanishes with resolution.", "anchors": ["src/subprog_sedov.cpp:96-114", "src/subprog_sedov.cpp:275-313"]}
{"id": "C87", "title": "Mass and energy budget of the cloud program", "statement": "Over any number of steps of either order, the total mass and energy on the grid change by exactly the time-weighted flux through the inner boundary minus the flux of the outermost cells' own states through the outer boundary; the poles are closed and the geometrical source terms carry neither mass nor energy.", "quantifier": "all grids, all states, all numbers of steps, both time integration orders, both reconstructions", "why_tests_cant": "A budget over all runs; a wrong face area at one of the poles or a source term in the energy shows up as a drift below the truncation error of any single test.", "anchors": ["src/subprog_cloud.cpp:439-585", "src/subprog_cloud.cpp:676-698"]}
{"id": "C88", "title": "The jet injects the configured energy", "statement": "Where the gas in the innermost shell moves outward faster than sound, mass enters through the inner face with the density and gamma-beta of the nozzle model, and the injected energy integrated over solid angle and time is jet_total_energy.", "quantifier": "all configurations with positive jet parameters, all angles and times, all outgoing gas states", "why_tests_cant": "Holds or fails for a continuum of parameters; the program has no diagnostic of the injected energy.", "anchors": ["src/subprog_cloud.cpp:73", "src/subprog_cloud.cpp:313-332", "src/subprog_cloud.cpp:466-493", "src/model_jet_nozzle.hpp:35-60"]}
{"id": "C89", "title": "Grid, geometry and time step of the cloud program", "statement": "The grid of the cloud program covers the configured number of decades from the inner radius with radii in geometric progression and nr zones per decade, and the polar angle from 0 to pi in equal steps. Cell volumes are positive and sum to the volume of the spherical shell, the face areas at each radius sum to that of the sphere, the faces at the poles have no area. Within one step no signal of any gas crosses more than cfl times a zone in either direction.", "quantifier": "all configurations, all grids, all gas states", "why_tests_cant": "Quantifies over all resolutions and all gas states.", "anchors": ["src/subprog_cloud.cpp:60-87", "src/subprog_cloud.cpp:260-290", "src/subprog_cloud.cpp:610-679"]}
{"id": "C90", "title": "Initial condition of the cloud program", "statement": "For every valid configuration the program can make its initial condition; each shell holds a cold gas of positive density flowing outward, as the envelope model gives it, and the cloud has the configured cloud_mass, cutoff and outer density index.", "quantifier": "all valid configurations", "why_tests_cant": "Termination of the root search over a continuum of radii; the irrelevance of configuration items is a statement about all pairs of configurations.", "anchors": ["src/subprog_cloud.cpp:60-87", "src/subprog_cloud.cpp:296-332", "src/subprog_cloud.cpp:610-666"]}
{"id": "C91", "title": "A gas at rest in the cloud program", "statement": "A uniform gas at rest, with no jet near, stays at rest: a step changes neither mass nor momentum nor energy of any cell away from the inflow.", "quantifier": "all grids, both reconstructions, all densities and pressures", "why_tests_cant": "Well-balancedness is an exact identity between face areas, volumes and source terms for every grid; its violation is of third order in the cell width and hides in tolerances.", "anchors": ["src/subprog_cloud.cpp:260-290", "src/subprog_cloud.cpp:511-585", "src/physics_srhd.hpp:306-346"]}
{"id": "C92", "title": "The mesh refinement sandbox", "statement": "The advection sandbox starts and ends for every block size, depth and final time: it takes the least number of equal steps that reaches the final time, each shorter than the width of the smallest cell; no step makes a density outside the range of the old ones; the total of density times area does not change; the number of zones in the message is the number of cells.", "quantifier": "all block sizes and depths, all meshes the refinement can build, all densities, all numbers of steps", "why_tests_cant": "The maximum principle must hold for every pattern of coarse and fine neighbours, including averages and interpolations between them, and every density; a run on one mesh shows one pattern. Loss of density at coarse-fine faces is invisible to smooth data.", "anchors": ["src/subprog_amrsand.cpp:135-155", "src/subprog_amrsand.cpp:197-206", "src/subprog_amrsand.cpp:247-305", "src/subprog_amrsand.cpp:324-350", "src/mesh_tree_operators.hpp"]}
{"id": "C93", "title": "The initial disk of the binary program", "statement": "The initial profile is a number everywhere in the square; it is axisymmetric with positive density, rotates in the configured sense, drifts inward at the configured mass rate beyond radius 2, and is in centrifugal balance with gravity and pressure of the program's own equation of state.", "quantifier": "all points, all disk radii, masses, ambient densities, Mach numbers, softening radii and mass rates", "why_tests_cant": "Whether the argument of a square root is ever negative depends on the point and on three parameters at once; balance is an identity between a derivative and three formulas in different files.", "anchors": ["src/subprog_binary.cpp:105-152", "src/subprog_binary_scheme.cpp:82-110"]}
{"id": "C94", "title": "The start of the binary program", "statement": "From every usable configuration the program builds a mesh, solver data and a first solution that the guarantees about runs apply to; every cell holds the profile at its centre, all ledgers are zero, unknown reconstruction methods are refused; the recommended step lets no gas cross more than the Courant number times the smallest cell; the buffer rate is at most buffer_damping_rate and the buffer is idle at first; density_floor is relative to the largest density; over a whole run, disk mass plus booked mass is the mass of the first disk.", "quantifier": "all configurations, all meshes they build, all cells, all numbers of steps", "why_tests_cant": "The guarantees about runs start from assumptions on the state; that the program's own start meets them for all sizes, depths and parameters is not visible in a run with one configuration.", "anchors": ["src/subprog_binary.cpp:166-227", "src/subprog_binary_solver_data.cpp:18-115", "src/subprog_binary.cpp:57-99"]}
{"id": "C95", "title": "The diagnostics of the cloud program describe the gas of the solution: totals, shock places and flow powers", "statement": "For a state of the cloud program (subprogram cloud) on at least two radial shells: the solid angles written per polar zone are those of the zones and sum to 4 pi between the poles; the total energies written per zone sum to the energy of all gas in erg; shock_midpoint_radius is the centre of the shell behind the first of the steepest entropy drops along the zone; the pressure and luminosity radii lie at or behind the shock and are where the climb inward from the shock ends; the upstream radius lies at or ahead of the shock; postshock_flow_gamma is the Lorentz factor at the pressure peak; postshock_flow_power is the energy flow through the shell of the pressure peak (the same as in radial_energy_flow); postshock_flow_power_max is the largest power behind the shock; the arrays over the cells are the primitive quantities in cgs units. Diagnostics can be written for every state whose cells hold a gas, and for no other.", "quantifier": "for all configurations with units, all numbers of shells (two or more) and zones, all vertex positions and all conserved states", "why_tests_cant": "The claim is about every profile of entropy, pressure and power; a test checks a few profiles with one clean shock, and the file writer is not tested at all.", "anchors": ["src/subprog_cloud.cpp:334-435", "src/post_shock_locator.hpp:71-172"]}
{"id": "C96", "title": "Array adapters keep the elements they promise: reshape, shift_by, freeze_axis, collect, where with read_indexes, zip, bounds_check", "statement": "Reshaping a memory-backed array to a shape with as many elements keeps the row-major sequence of its elements, and any other shape throws. A | shift_by(d).along_axis(n) has |d| fewer elements along axis n and its element at i is A's at i with component n reduced by d, inside A. Freezing axes leaves the array over the other axes, whose elements are those of A with the frozen components at the given values, whatever order the axes are named in. collect(op).along_axis(n) holds at every index the value of op on the one-dimensional row along axis n, so sums along an axis add up to the sum of the array. Reading an array at nd::where(mask) gives the elements where the mask is true, in row-major order. Unzipping zipped arrays gives them back. bounds_check changes nothing inside the shape and throws outside. Axes at or beyond the rank throw.", "quantifier": "for all ranks, shapes, axes, shifts, element types, reductions and masks", "why_tests_cant": "The claims range over ranks, axes and shapes; the unit tests use small arrays and one axis, and out-of-range reads need not crash.", "anchors": ["src/core_ndarray.hpp:902-1037", "src/core_ndarray.hpp:1627-1661", "src/core_ndarray.hpp:1794-1870", "src/core_ndarray.hpp:2035-2053", "src/core_ndarray.hpp:2168-2180", "src/core_ndarray.hpp:2675-2712"]}
{"id": "C97", "title": "The domain decomposition demonstration: every cell centre once, and blocks written to their place in the file", "statement": "mara partdom with N cells per side and procs processes: the arrays of cell centres of the proposed blocks hold the centre of every one of the N^3 cells exactly once (integer index plus one half in every direction) and nothing else, one block per process. The selection of a dataset made from an access pattern (make_hdf5_hyperslab) holds exactly the positions of the pattern, each once, in the order in which an array of the pattern's shape lies in memory; writing such an array changes exactly those positions, to the elements that the pattern maps there. So writing all blocks, in any order, fills the dataset with the coordinates of the cells; the program writes the first block and leaves zeros elsewhere. Any domain with at least as many cells as processes can be decomposed; otherwise an exception is thrown.", "quantifier": "for all N, all numbers of processes, all strided access patterns of any rank, all array contents and all orders of writing", "why_tests_cant": "A test can look at a few sizes; that no cell is missed or doubled, and that file and memory order agree for every pattern, is a statement about all of them. The program only prints.", "anchors": ["src/subprog_partdom.cpp:60-138", "src/app_serialize.hpp:172-181", "src/core_hdf5.hpp:110-127", "src/core_hdf5.hpp:397-406", "src/app_parallel.hpp:119-179"]}
{"id": "C98", "title": "A step of the binary program fails only for a density below zero or a pair of bodies that comes apart", "statement": "For the binary program (subprogram binary) on every mesh, in both schemes and in safe mode or not, from every valid state: one evaluation of the scheme gives a valid state again, or throws runtime_error, and then the new data has a density below zero somewhere, or throws invalid_argument, and then the two bodies would not hold together any more after the gas they take in or after the pull of the gas; if neither is the case it succeeds. It never terminates the program, misses a block, combines blocks of different shapes or reads outside an array. next_solution throws only if both the first attempt and the one in safe mode with a tenth of the step failed. So a whole run ends in a valid state or with one of these two exceptions; on a prescribed, bound orbit the computation of the places of the bodies always ends. Before begin_live_binary the gas does not act on the orbit, so it cannot stop the run by tearing the bodies apart.", "quantifier": "all block sizes, refined meshes, options, sources, valid states, time steps, numbers of steps; orbits that are bound and no more eccentric than 9/10 for the ending of the orbit computation", "why_tests_cant": "A test runs one setup and sees one outcome; the claim rules out every other outcome for all meshes and states and says exactly what has to be true of the gas for each exception.", "anchors": ["src/subprog_binary.cpp:258-293", "src/subprog_binary_scheme.cpp:725-790", "src/subprog_binary_scheme.cpp:900-1028", "src/model_two_body.hpp"]}
{"id": "C99", "title": "Evaluating an orbit ends in double arithmetic too", "statement": "compute_two_body_state in double arithmetic: for a bound orbit of moderate eccentricity the search for the eccentric anomaly ends at every time, with Kepler's equation solved to the tolerance, and so does the loop that moves a time before the periapse to a later orbit.", "quantifier": "all masses, separations, eccentricities up to 1/4, times, and sine and cosine functions accurate to 2^-50; IEEE 754 binary64 arithmetic without overflow", "why_tests_cant": "Whether the loop ends depends on the rounding of every single mean anomaly: below 65533 it always ends, beyond 2^20 it fails for a few percent of the times, so a test at a handful of times passes.", "anchors": ["src/model_two_body.hpp:113-145", "src/model_two_body.hpp:168-216"]}
{"id": "C100", "title": "Reconstruction, averages and grids keep their bounds in double arithmetic", "statement": "With rounding included: the values that the PLM reconstruction puts at the faces of a cell lie between the cell's value and its neighbour's, so positive densities stay positive there, for every limiter parameter in the documented range; the mean of two values lies between them and the mean of equal values is exact; linspace starts and ends at its arguments, increases, and each point is accurate to a few units in the last place.", "quantifier": "all double values, limiter parameters from 0 to 2, grid spacings, numbers of points up to 2^53; IEEE 754 binary64 arithmetic without overflow", "why_tests_cant": "The bounds are lost in the last bit for rare combinations of values: a density ratio of 2^-60 across a face with parameter 2, or one number of zones in ten.", "anchors": ["src/math_interpolation.hpp:86-95", "src/subprog_cloud.cpp:450-464", "src/subprog_cloud.cpp:556-570", "src/subprog_binary_scheme.cpp:281-282", "src/core_ndarray.hpp:2544-2551", "src/core_ndarray_ops.hpp:121-128", "src/subprog_cloud.cpp:651"]}
{"id": "C101", "title": "File system helpers touch exactly what they are asked to", "statement": "remove_recurse on a directory removes that directory with everything in it, returns 0, and leaves everything else as it was; remove_file removes one file, link or empty directory; listdir gives the entries that are not hidden and throws for anything that is not a directory; isfile and isdir are true exactly for regular files and for directories; require_dir leaves the whole path present and keeps what was there.", "quantifier": "all file trees with files of every type, absolute and relative symbolic links, all paths and all listing orders", "why_tests_cant": "The tests only remove single files; a link inside the tree, a socket, or a file in the way of a new directory gives silent damage or a wrong answer, and trees are unbounded.", "anchors": ["src/app_filesystem.hpp:67-87", "src/app_filesystem.hpp:137-231"]}
{"id": "C102", "title": "Clocks and schedules in double arithmetic", "statement": "With rounding included: over a million intervals a scheduled task is marked as often as intervals have passed, and its last-performed time stays within 1/4096 of an interval of a multiple of the interval; a run with positive time steps ends, at the requested final time or later by less than one step and a rounding, and the time of the run is the sum of its steps up to one rounding per step.", "quantifier": "all intervals, sequences of times, sequences of time steps, final times, first and second order time integration; IEEE 754 binary64 arithmetic without overflow", "why_tests_cant": "Rounding errors accumulate over a million sums, and a run that does not end can not be told from a slow one by testing.", "anchors": ["src/app_schedule.hpp:117-128", "src/app_schedule.hpp:180-198", "src/subprog_binary.cpp:262-276", "src/subprog_binary.cpp:317-320", "src/subprog_binary.cpp:428", "src/subprog_sedov.cpp:552-557", "src/subprog_cloud.cpp:822-827"]}
{"id": "C103", "title": "Messages between processes arrive once, whole and in order", "statement": "Whatever processes send to one another and in whatever order they receive: the messages from one process to another with one tag are returned by recv once each, whole and in the order sent, no message is cut off, and a receive completes whenever a fitting message waits. A message sent with isend or received with irecv is the same as with send and recv, provided the request is kept until it has completed.", "quantifier": "all numbers of processes, all interleavings of sends, probes and receives, all messages, tags and wildcards, all times at which the library transfers a non-blocking message", "why_tests_cant": "The choice of the library among several senders and the time of a transfer are not under the control of a test; the wrong cases work on most machines.", "anchors": ["src/core_mpi.hpp:503-540", "src/core_mpi.hpp:550-604", "src/core_mpi.hpp:131-136", "src/core_mpi.hpp:222-260"]}
{"id": "C104", "title": "Mass and energy budgets in double arithmetic", "statement": "With rounding included: in the explosion program nothing at all passes the reflecting inner face; the total mass and the total energy change in a step by what passes the outermost face, to within 2^-51 of the total, and over a run of up to a billion steps in which nothing passes that face the total drifts by at most 2^-48 of itself per step. In the cloud program a step changes the totals by what passes the inner and outer boundary, to within 2^-51 of the totals and of the amounts moved between cells.", "quantifier": "all numbers of cells, all fluxes, areas, volumes, time steps and states that are doubles; Newtonian and relativistic gas at the inner face; IEEE 754 binary64 arithmetic without overflow", "why_tests_cant": "A test compares one run with a tolerance chosen by eye; a flux that is not shared by the two cells next to it would hide under such a tolerance, and so does a leak at the boundary.", "anchors": ["src/subprog_sedov.cpp:395-420", "src/subprog_sedov.cpp:232-241", "src/physics_euler.hpp:614-631", "src/physics_srhd.hpp:466-483", "src/subprog_cloud.cpp:534-578"]}
{"id": "C105", "title": "A complete run writes every output that is due, and no other", "statement": "A complete run of the binary, explosion, cloud or boilerplate program writes checkpoints and diagnostics numbered 0, 1, 2 and so on without gaps, as many as whole intervals have passed at the final time; number k holds the solution right after the first step that begins at or beyond k intervals, so not before k intervals and less than two steps later; each checkpoint of the binary program holds all samples of the time series up to its time, oldest first. The exit code tells whether the run was done.", "quantifier": "all solvers, configurations, initial solutions, numbers of steps below 2^31 - 3, and intervals that no step exceeds; exact times (C102 for rounding); all maps of sub-programs and argument lists", "why_tests_cant": "A test sees one run and a few files; a missing or doubled output at the end of a run or at a coincidence of step and interval depends on the step sizes, which follow from the physics.", "anchors": ["src/subprog_binary.cpp:295-386", "src/subprog_binary.cpp:414-436", "src/subprog_boilerplate.cpp:265-287", "src/subprog_sedov.cpp:622-646", "src/subprog_cloud.cpp:915-937", "src/app_main.cpp:52-96"]}
{"id": "C106", "title": "What is opened is closed exactly once", "statement": "However objects of h5::PropertyList, Datatype, Dataspace, File, Group, Dataset, mpi::Communicator, mpi::Request or nd::buffer_t are constructed, copied, moved, assigned, closed and destroyed, every HDF5 id, communicator, request or block of memory they open is held by exactly one object, is never closed twice, and is closed when the last object is gone, so that a file can be created again when no object of it is left.", "quantifier": "all programs (finite sequences of constructions, copies, moves, assignments, closings and destructions) over any number of objects of a class", "why_tests_cant": "A leak or a double close shows in no result; it depends on the order of moves, assignments and destructions, of which there are infinitely many.", "anchors": ["src/core_hdf5.hpp:134-182", "src/core_hdf5.hpp:210-276", "src/core_hdf5.hpp:313-345", "src/core_hdf5.hpp:515-548", "src/core_hdf5.hpp:937-966", "src/core_mpi.hpp:118-180", "src/core_mpi.hpp:362-442", "src/core_ndarray.hpp:1304-1345"]}
{"id": "C107", "title": "Parts of data sets are written and resized exactly, and the time series file has one row per sample", "statement": "Writing a value to a hyperslab of a data set gives element number k of the selection the value number k in row-major order and changes nothing else, for every rank, start, count, stride and block; it throws if the selection leaves the data set or has another size. Writes to selections that do not overlap can be made in any order. Resizing keeps what is in both extents and fills the rest. What was written to a selection can be read from it, and a data set can be asked for again with the arguments it was made with. The time series file of the explosion program has one row per sample in every column, in order, also when a resumed run starts again at an earlier row.", "quantifier": "all ranks, extents, hyperslabs, values, data sets; all numbers of columns and rows, all runs (up to 2^31 - 1 rows)", "why_tests_cant": "A test fixes a rank, a selection and a few rows; an element written beside the selection, or a stale row after resuming, shows only for other shapes.", "anchors": ["src/core_hdf5.hpp:110-127", "src/core_hdf5.hpp:347-406", "src/core_hdf5.hpp:678-754", "src/core_hdf5.hpp:842-861", "src/app_serialize.hpp:193-230", "src/subprog_sedov.cpp:518-530", "src/subprog_sedov.cpp:597-616"]}
{"id": "C108", "title": "A run that is killed and resumed any number of times leaves the same files", "statement": "If a run is killed, at any moment and any number of times, and resumed each time from the last checkpoint it completed (or started anew if it completed none), then it ends as the run without a kill does, and the output directory holds the same files with the same contents: none is missing, doubled, numbered differently or cut off.", "quantifier": "all solvers, configurations, initial solutions and intervals; all numbers of kills at all moments, also in the middle of writing a file; all orders in which the schedule in the file is iterated", "why_tests_cant": "The moments of the kills and their sequence are unbounded; a test kills a run at one place, and the wrong case needs two kills in a certain order.", "anchors": ["src/subprog_binary.cpp:155-164", "src/subprog_binary.cpp:238-252", "src/subprog_binary.cpp:295-386", "src/subprog_binary.cpp:414-436", "src/subprog_boilerplate.cpp:192-287", "src/subprog_cloud.cpp:915-937"]}
{"id": "C109", "title": "The diagnostics file shows the gas that the run holds", "statement": "In each cell of the diagnostics output the surface density is the one of the solution, and density times radial and azimuthal velocity is the radial and azimuthal momentum of the solution about the origin, in both schemes; the stored body positions are those gravity acts from; the density field adds up to the disk mass, and density times radius times azimuthal velocity to the disk angular momentum, that the time series reports. It exists for every refined mesh and every even block size.", "quantifier": "all meshes, block sizes, schemes, physical parameters, orbits and solutions without empty cells", "why_tests_cant": "Signs and directions of the unit vectors agree at many special places; the sums hold over meshes of every depth, and the zero divisor occurs on particular meshes only.", "anchors": ["src/subprog_binary_diagnostics.cpp:48-82", "src/subprog_binary.hpp:130-140", "src/core_tree.hpp:891-906", "src/subprog_binary_scheme.cpp:1075-1107"]}
{"id": "C110", "title": "A checkpoint file holds the whole state", "statement": "The checkpoint that a program writes has every part of its state in it, and reading it back gives the same state: solution, meshes with every block in its place, all booked quantities, orbital elements, time series in the same order, schedule and configuration, whatever order the file library lists the entries in. A file that lacks an entry is refused, no entry is made up. The same holds for the diagnostics file.", "quantifier": "every state of the binary, cloud and boilerplate programs; every tree shape of up to 30 levels; every listing order; every file offered for reading", "why_tests_cant": "All tree shapes, all states and all listing orders of the file library.", "anchors": ["src/subprog_binary_io.cpp: write<solution_t>, write<state_t>, write<diagnostic_fields_t>, read<...>, hdf5_type_info<...>", "src/app_serialize_tree.hpp: write_tree, read_tree", "src/subprog_cloud.cpp: write_solution, read_solution, write_checkpoint", "src/subprog_boilerplate.cpp: write_solution, read_solution, write_checkpoint", "src/subprog_sedov.cpp: write_checkpoint, create_run_config"]}
{"id": "C111", "title": "A function that throws on another thread", "statement": "When the function given to a tree map throws for some leaf, the caller of the map gets that exception, also when the map runs on several threads, and can handle it; a map that does not throw gives the same tree on any number of threads.", "quantifier": "every tree, every function, every number of workers, every order of events", "why_tests_cant": "All interleavings of the workers and of the calling thread.", "anchors": ["src/core_thread_pool.hpp: enqueue, make_worker", "src/core_tree.hpp: map with a launch policy, map on a thread pool", "src/subprog_binary.cpp: next_solution"]}
{"id": "C112", "title": "No zone of the cloud program is emptied in a step", "statement": "After a step of the cloud program that starts from a gas in every zone, every zone still holds a positive mass, so the run can go on.", "quantifier": "every configuration, grid, jet, state of the gas and step", "why_tests_cant": "All states of the gas; the bound on the time step is an inequality between the areas and volumes of every zone of every grid.", "anchors": ["src/subprog_cloud.cpp: CloudProblem::advance, next_solution, estimate_gradient_plm", "src/physics_srhd.hpp: riemann_hlle, recover_primitive"]}
{"id": "C113", "title": "The time series of the binary program is a closed account", "statement": "In every checkpoint of a complete run of the binary program, every sample of the time series accounts for the same mass (disk, accreted on both bodies, ejected), in the angular momentum conserving scheme also for the same angular momentum (disk, accreted, passed on by gravity, ejected); along the series time and the accreted masses never decrease, the mass of the binary grows by exactly what was accreted, and the recorded positions of the bodies fit the recorded orbital elements.", "quantifier": "every mesh, configuration, initial state, number of steps and schedule of checkpoints, diagnostics and samples", "why_tests_cant": "The series of a run of any length, on every mesh and in every state of the gas, through failed and repeated steps.", "anchors": ["src/subprog_binary.cpp: run_tasks (record_time_series), main", "src/subprog_binary.hpp: time_series_sample_t", "src/subprog_binary_diagnostics.cpp: disk_mass, disk_angular_momentum"]}
{"id": "C114", "title": "The cloud program computes the same on any number of threads", "statement": "A run of the cloud program that goes through with evaluation on one thread gives exactly the same solution with mara::evaluate_on<P>, for every number of threads P up to the number of radial zones and in whatever order the assignments of the threads happen in every evaluation of every stage of every step; and a failure to recover a state in a zone reaches the caller of next_solution as an exception, as it would with nd::to_shared, for which evaluate_on is documented as a drop-in replacement.", "quantifier": "every configuration, grid, state, number of steps and of threads, and every interleaving", "why_tests_cant": "A test sees a few of the astronomically many interleavings, on a few grids and thread counts; the schedule that goes wrong need not occur on the test machine.", "anchors": ["src/app_parallel.hpp: evaluate_on", "src/subprog_cloud.cpp: advance, next_solution, main loop", "configure: num_threads"]}
{"id": "C115", "title": "The boilerplate program carries its wave around the ring at unit speed", "statement": "With N zones every run of the boilerplate program holds, after any number of steps, in every zone the value that the initial sine wave moved at unit speed has at the zone's centre and the recorded time, up to 2 pi^2 (1 - c) / N times the time (c = N / (4 (N + 1)) is the Courant number), and no value leaves [-1, 1]. From any values on the ring a step makes no new maximum or minimum, does not increase the total variation and conserves the total. The run loop ends at the first time not below tfinal, within one step of it.", "quantifier": "every N, number of steps, tfinal (iteration count within int) and field on the ring", "why_tests_cant": "Convergence and bounds at every resolution and for every length of run; a test checks one resolution at one time.", "anchors": ["src/subprog_boilerplate.cpp: new_solution, next_solution, intercell_flux_on_axis, main", "src/core_ndarray_ops.hpp: extend_periodic_on_axis, difference_on_axis, midpoint_on_axis"]}
{"id": "C116", "title": "Checkpoints of complete explosion and cloud runs account for mass and energy", "statement": "A run of the explosion program (either system) or of the cloud program that ends returns 0 after the first step that reaches tfinal, leaves the checkpoints 0, 1, ... up to the number of whole checkpoint intervals, and every checkpoint holds the solution at a time between k cpi and two steps later: its mass and energy are those of the configured initial condition, less what left through the outer face and (cloud) plus what the jet brought in through the inner face, summed over the steps up to it. A Newtonian explosion run ends for every configuration.", "quantifier": "every configuration, resolution, tfinal and intervals not shorter than a step, and every number of rounds below 2^31", "why_tests_cant": "The account must hold at every checkpoint of every run and needs the schedule, the step and the initial condition together; a test compares a few files with stored ones.", "anchors": ["src/subprog_sedov.cpp: run_main, next, next_schedule, run_tasks, new_solution, next_solution", "src/subprog_cloud.cpp: main, next, next_schedule, run_tasks, new_solution, next_solution"]}
{"id": "C117", "title": "A failed step of the disk program is rescued by the retry", "statement": "A step that fails is repeated with a tenth of the time step and without reconstruction. In that second attempt no cell is emptied: on every mesh with any refinement, each cell keeps at least the part 1 - dt (4 (V + C) / dx + sinks + buffer) of its gas, V being the largest speed along an axis and C the largest speed of sound at the faces. So while that is not negative the second attempt is never rejected for a negative density, and the run goes on unless the binary comes apart.", "quantifier": "every quadtree mesh, block size, setting, first or second order, both momentum schemes, and every state with positive densities", "why_tests_cant": "The bound must hold for every state, at every change of refinement and with the corrected fluxes there; tests run the retry on no state at all, as it only happens in extreme ones.", "anchors": ["src/subprog_binary.cpp: next_solution", "src/subprog_binary_scheme.cpp: advance_u, advance_q, block_fluxes_u, correct_fluxes_x, correct_fluxes_y, validate"]}
{"id": "C118", "title": "The default Courant number does not empty a cell", "statement": "With the time step cfl_number times the smallest crossing time of a cell and the reconstruction of the first attempt, the hydrodynamic update leaves no cell with a negative density.", "quantifier": "every patch of cells with positive densities, all velocities and speeds of sound, all plm_theta up to 2", "why_tests_cant": "Whether a cell is emptied depends on the densities of nine cells and the Courant number; a test tries smooth flows.", "anchors": ["src/subprog_binary.cpp: create_config_template", "src/subprog_binary_scheme.cpp: intercell_flux_u, estimate_plm_difference, block_update_u"]}
{"id": "C119", "title": "Complete runs of the mesh refinement sandbox leave the diagnostics they promise", "statement": "A run of the sandbox ends with exit code 0 for every block size, depth and final time, and leaves diagnostics files 0, 1, ..., one per whole interval dfi. File 0 holds the initial condition, file k a solution made between k dfi and two steps later, on the same mesh, with all densities between 0 and 1, and with the initial mass when all blocks have one size. A restarted run goes on from the file it is given.", "quantifier": "every block_size, depth up to 30, dfi no shorter than a step, tfinal of up to 2147483640 steps, every value of restart", "why_tests_cant": "The files depend on schedule, step and mesh over the whole run; the program has no test.", "anchors": ["src/subprog_amrsand.cpp: run_main, next, next_schedule, run_tasks, write_diagnostics, create_app_state, config_template"]}
{"id": "C120", "title": "The diagnostics file of the explosion program", "statement": "A diagnostics file of the explosion program holds eleven data sets: mass density, gas pressure, specific entropy and radial velocity (radial four-velocity in the relativistic system) of the gas in every shell, the midpoints of the shells, and the six numbers of the time series, each under its name and none lost to another. They suffice to rebuild a Newtonian state without transverse momentum. The first file of a run, written at time zero, holds the initial gas and six finite numbers.", "quantifier": "all grids of at least two shells, all states that can be recovered, both systems; for the first file all outer radii, resolutions, explosion densities and pressures and density indexes >= 0", "why_tests_cant": "A test fixes a grid and a state; the definedness of the first record depends on how many shells lie inside the explosion.", "anchors": ["src/subprog_sedov.cpp:135-143", "src/subprog_sedov.cpp:253-313", "src/subprog_sedov.cpp:497-515"]}
{"id": "C121", "title": "No cell of the disk is emptied at a fifth of a cell per step", "statement": "One evaluation of the disk scheme, with the linear reconstruction or in safe mode, leaves in every cell at least its density times one minus dt times a rate: five signal speeds per cell width plus the sink rates of the two bodies and the buffer rate. So a step in which no signal crosses a fifth of a cell is not rejected for a density below zero and is not repeated with a tenth of its length, also where blocks of different levels meet.", "quantifier": "all trees, block sizes, states with gas in every cell, signal speeds, bodies, time steps >= 0, plm_theta <= 2, both schemes, both modes, one or two stages", "why_tests_cant": "A run meets particular flows and meshes; whether the guard cells and gradients next to finer and coarser blocks can drain a cell faster than its neighbours is a statement about all states on all trees.", "anchors": ["src/subprog_binary.cpp:258-293", "src/subprog_binary_scheme.cpp:131-153", "src/subprog_binary_scheme.cpp:265-320", "src/subprog_binary_scheme.cpp:471-562", "src/subprog_binary_scheme.cpp:789-829"]}
{"id": "C122", "title": "The output files of the cloud program", "statement": "A diagnostics file of the cloud program holds 23 data sets: the time in seconds, five tables over the cells (pressure, density, entropy, energy flow, radial four-velocity) row by row in cgs units, the two grids of vertices, and fifteen columns with one value per polar zone, each under its own name and with the value of the gas it is named after. Together the files of a run tell the state of the gas, and time_series.h5 gets one row each time write_time_series is performed.", "quantifier": "all configurations with units, all grids of at least two shells, all states with gas in every cell, all complete runs", "why_tests_cant": "A test reads back one file of one state; that no name is written twice, that tables are stored in the order in which they are read, and which states share one file are statements about all states.", "anchors": ["src/subprog_cloud.cpp:334-435", "src/subprog_cloud.cpp:769-803", "src/subprog_cloud.cpp:891-906"]}
{"id": "C123", "title": "The cloud program keeps the two hemispheres alike and starts no rotation", "statement": "The jet and the counter jet are alike, and so are the two hemispheres of a run at all times: the zones at equal distances from the two poles hold the same mass, radial momentum and energy and opposite polar momentum, nothing rotates about the axis, and the zones within any angle of one pole hold as much mass, radial momentum and energy as those within the same angle of the other, in every checkpoint. A run from a start seen in a mirror in the equator is the run seen in the mirror.", "quantifier": "all configurations with units, both reconstruction methods, both orders in time, all grids with vertices alike on both sides of the equator, all states that can be advanced, all numbers of steps, all complete runs", "why_tests_cant": "A test compares the halves of a few states of a few runs; a scheme that treats the two sides of a face differently in rare states (limiter, wave speeds, cotangent) shows only in those states.", "anchors": ["src/subprog_cloud.cpp:466-579", "src/subprog_cloud.cpp:676-697", "src/physics_srhd.hpp:259-346"]}
{"id": "C124", "title": "What a cell holds depends on its neighbourhood only", "statement": "A disturbance crosses at most one shell per step of the explosion program, and at most reconstruct_method times rk_order zones per step of the cloud program, counted along the grid lines: two runs that start alike within that distance of a cell agree in the cell, wherever else they differ. The strength of the explosion does not change a shell it cannot have reached, and the jet's options do not change the shells beyond the reach of the inner boundary.", "quantifier": "all grids, all pairs of states that can be advanced, both systems of the explosion program, both reconstruction methods and both orders of the cloud program, all numbers of steps, all pairs of configurations with the same scheme", "why_tests_cant": "A test perturbs one cell of one state and looks at a few steps; that no cell outside the cone of dependence is ever touched is a statement about all pairs of states.", "anchors": ["src/subprog_sedov.cpp:394-421", "src/subprog_cloud.cpp:466-579", "src/subprog_cloud.cpp:676-697"]}
{"id": "C125", "title": "The mass of the disk is a matter of units as long as the binary is not live", "statement": "With disk_mass and mdot k times as large (k positive) the disk program starts from k times the densities and momenta at the same velocities, with a density floor k times as high. As long as the binary is not live and every step is made by the first attempt, it then makes steps of the same length, and after any number of steps every density and momentum, the masses and angular momenta accreted, the torques, what left through the buffer, and the mass and angular momentum of the disk are k times as large, while the time and the binary's elements are the same.", "quantifier": "all positive factors, all meshes, settings and states, both schemes and both orders, fixed and chosen time steps, all numbers of steps, all options", "why_tests_cant": "A test compares two masses for one mesh and a few steps; that no term of the scheme has a density scale of its own is a statement about all of its terms, limiters and thresholds on all states.", "anchors": ["src/subprog_binary.cpp:105-152", "src/subprog_binary.cpp:258-293", "src/subprog_binary_scheme.cpp:131-155", "src/subprog_binary_scheme.cpp:265-320", "src/subprog_binary_scheme.cpp:345-466", "src/subprog_binary_scheme.cpp:787-1069", "src/subprog_binary_solver_data.cpp:18-115"]}
{"id": "C126", "title": "Cells that are empty or hold a value that is not a number", "statement": "In double arithmetic the check after a step of the disk program rejects exactly the states with a density below zero; a density that is zero or not a number (NaN) passes, and gives its cell a signal speed that is NaN whatever the momentum. The time step is NaN if and only if the speed of the first cell of the first block is: the run loop then ends after one more step, as if the final time had been reached. Such a cell anywhere else in its block does not change the time step. The time step never exceeds the limit of a block without such cells.", "quantifier": "all binary64 values including infinities and NaN, all meshes, all states, both orders, any scheme for the gas", "why_tests_cant": "NaNs are rare, and where one appears decides whether the run ends quietly, goes on with it or steps too far; a test sees one place.", "anchors": ["src/subprog_binary_scheme.cpp:726-784", "src/subprog_binary_scheme.cpp:1107-1126", "src/physics_iso2d.hpp:320-362", "src/core_ndarray.hpp:1975-2014", "src/core_sequence.hpp:268-276", "src/core_tree.hpp:500", "src/subprog_binary.cpp:258-320", "src/subprog_binary.cpp:428-435"]}
{"id": "C127", "title": "A value that is not a number in the explosion program", "statement": "In double arithmetic, with the Newtonian equations: if the mass of a shell is not a number (NaN), then after k steps so is the mass of every shell within k of it, and of every shell after as many steps as there are shells. Shells farther than k away are, to the last bit, what they would have been. A shell whose squared sound speed is below zero (a pressure below zero by no less than 2^-1074 of a positive density suffices, and so does, in a shell at rest, an energy density that is negative by 2^-1000 and by 2^-1000 of the mass density) is not repaired: after one step its mass and that of the next shell outside are NaN. The run loop does not end for it: its number of steps and the time at its end are the same for every gas.", "quantifier": "all numbers of shells, all binary64 states, areas, volumes, radii and time steps, including infinities and NaN, all numbers of steps", "why_tests_cant": "a test shows one blow-up; that a NaN spreads at exactly one shell per step from any state, stays inside that cone and never ends the loop is a statement about all doubles", "anchors": ["src/subprog_sedov.cpp:394-421", "src/subprog_sedov.cpp:552-557", "src/physics_euler.hpp:555-577", "src/physics_euler.hpp:614-632"]}
{"id": "C128", "title": "Values that are not numbers and the relativistic recovery", "statement": "In double arithmetic srhd::recover_primitive throws for every conserved state with a component that is not a number (NaN). If it returns, no component of its argument was NaN, the density returned is a number above zero and the pressure is above zero or NaN; the check for a NaN Lorentz factor never fires. In the relativistic explosion program a NaN in any shell therefore ends the run in the next step, and if the program returns, no state up to the end of its run loop holds one. What is returned consists of numbers and comes from a finite momentum.", "quantifier": "all binary64 conserved states, adiabatic indices and temperature floors including infinities and NaN; all numbers of shells, volumes, time steps and updates", "why_tests_cant": "fifty passes of a root finder on arbitrary doubles: that no NaN state converges, and that the last check is idle, is about all of them; the accepted states with NaN pressure are a thin set that random tests miss", "anchors": ["src/physics_srhd.hpp:364-451", "src/subprog_sedov.cpp:394-421", "src/subprog_sedov.cpp:552-557"]}
{"id": "C129", "title": "When the clock of the explosion program gets to the final time", "statement": "In double arithmetic the run loop of the Newtonian explosion program goes on for ever if and only if the clock comes to a stop short of the final time, that is, if adding the time step to some time before it gives the same time again. With the relativistic equations it may also end with an exception. If the clock does not stop, the loop ends, for every start time, time step and final time, negative, infinite or NaN ones included, and whatever the gas. A positive time step is enough for it to end.", "quantifier": "all binary64 start times, time steps and final times including infinities and NaN, all gases and grids", "why_tests_cant": "termination over all doubles; a run that would take 2^60 steps cannot be told from one that never ends by running it", "anchors": ["src/subprog_sedov.cpp:404-405", "src/subprog_sedov.cpp:416-420", "src/subprog_sedov.cpp:552-557", "src/subprog_sedov.cpp:638-642"]}
