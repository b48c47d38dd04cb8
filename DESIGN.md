# Design

Formal model of parts of jzrake/Mara3 (C++ sources in /repo/src, read as text) in Rocq (Coq 8.16.1).

## Layout

- `rocq/theories/Base.v`: outcome type (value, exception, undefined behaviour) and shared lemmas.
- `rocq/theories/<Topic>Model.v`: definitions that follow the C++ functions, each with the file and lines it models.
- `rocq/theories/<Topic>Proofs.v`: lemmas.
- `rocq/theories/<Topic>Props.v`: the property theorems, their examples, and `Print Assumptions`.

## Modelling conventions

- Undefined behaviour and C++ exceptions are distinct outcomes (`UB`, `Throw`), never default values.
- `int` and `std::size_t` are mathematical integers with explicit range checks or explicit wrap-around where a property depends on it.
- `double` is modelled by exact numbers (Z, Q, R or an abstract ring): rounding is not modelled, except in the files built on `DoubleModel.v` (binary64 with round-to-nearest-even over Flocq; claims C99, C100, C102, C104). All other claims about numerical formulas are claims in exact arithmetic.
- Templates over rank are modelled for every rank by lists; ranks are lengths.
- Loops are structural recursion, folds, or fuelled recursion with an explicit out-of-fuel value that is proved unreachable.
- Threads are small-step transition systems.

## Trusted base

- The Coq kernel (8.16.1), and the axioms of the standard library that `Print Assumptions` lists per theorem (see the end of this file).
- That the model definitions correspond to the cited C++ lines. This is by reading only: nothing is extracted or run.
- Not modelled: floating-point rounding except where stated, HDF5 and MPI libraries themselves, the file system except where stated, memory allocation failure, template/compile-time mechanics, printing.

## Plan per property

| id | property | model and proof |
|----|----------|-----------------|
| C01 | Rational arithmetic is exact and results are in canonical sign/lowest-terms form | Model rationals as pairs of Z with explicit int32 range checks (UB outcome on overflow); binary gcd with fuel, proved sufficient. Compare with Q. |
| C02 | Rational comparisons agree with the mathematical order | Same model; comparisons go through subtraction as in the code. Equality at zero is stated exactly (refuted as value equality). |
| C03 | The Runge-Kutta step counter stays an exact integer | Iterate the RK1/RK2 counter update of the model; invariant: numerator n, denominator 1. |
| C04 | Quadtree/octree addresses: child, parent and neighbour moves are mutually inverse | Index = level and list of coordinates (any dimension). Bijection and inverse laws by arithmetic on Z mod 2^level. |
| C05 | Every leaf of a tree can be found by its own address | Tree = inductive with list of children (length 2^D invariant). Induction over trees. |
| C06 | The leaves tile the domain | Ancestor relation defined on coordinates by division; existence and uniqueness by induction. |
| C07 | Membership tests agree with lookups, and where they are undefined is known exactly | Result type with distinct UB outcome for the negative shift; equivalences by induction. |
| C08 | Inserting a leaf makes it readable and disturbs nothing else | insert modelled as recursion on the level with explicit throw outcomes. |
| C09 | A tree written leaf by leaf is rebuilt exactly, in any order | Fold of insert over a permutation of the leaf list; generalised invariant on partially built trees. |
| C10 | Tree addresses survive the round trip through their text names | Decimal printing/parsing on lists of characters, with zero padding. |
| C11 | Mapping and pairing trees preserve shape, order and composition | Structural induction; shape equality as an independent relation. |
| C12 | Tree updates and refinements touch only what they name | Structural induction plus counting lemma. |
| C13 | Mesh balancing terminates and yields a balanced mesh | ensure_valid_quadtree as fuelled loop; potential function shows the fuel is sufficient. |
| C14 | The Hilbert index orders the cells of a level without collisions | Refuted: the model of hilbert_index passes the level where the side length belongs. Corrected variant only as a remark. |
| C15 | Every task given to the thread pool runs exactly once, in FIFO start order | Small-step transition system: mutex, condition variable with wait set, queue, workers, producers; invariants over all reachable states. |
| C16 | Stopping the thread pool always terminates | Refuted by an explicit execution to a stuck state (lost wakeup); partial: under the guard that no worker is between the predicate test and blocking, termination. |
| C17 | Parallel tree map equals sequential map on every schedule | Jobs executed in any permutation, results collected per leaf; equality with the sequential map. |
| C18 | Recurring tasks do not drift | Times are exact (Q/Z) numbers; invariant over step sequences. |
| C19 | Due tasks run exactly once, in the given order, and others never | Fold over task list; trace of calls recorded in the model. |
| C20 | A run resumed from a binary checkpoint continues exactly like the uninterrupted run | Abstract solver step as a Section variable; write/read of schedule as in the code; simulation proof between original and resumed run. |
| C21 | Resuming never overwrites the checkpoint it came from | Refuted by witness for the three subprograms; strongest true version is proved. |
| C22 | A run configuration keeps the template's keys and types under every update | Association-list model of the maps, invariants over operation lists. |
| C23 | Command-line arguments are parsed into key/value pairs without loss | Lists of ascii characters. |
| C24 | Splitting and joining paths are inverse | Lists of ascii characters. |
| C25 | Parent and extension of a path | Lists of ascii characters; extension refuted for dots in directories, proved under the guard. |
| C26 | Prime factorisation is correct | Fuelled trial division, with overflow as UB outcome. |
| C27 | Proposed process grids use every process | Fold over factors in decreasing order. |
| C28 | Domain decomposition tiles the global index space | Block ranges by integer division; product over axes. |
| C29 | Multi-threaded evaluation equals single-threaded evaluation, without data races | Write sets of threads as lists of indexes; disjointness and coverage; refutation when threads exceed rows at rank 2. |
| C30 | Row-major offsets are a bijection onto the buffer | List-based shapes and indexes of any rank. |
| C31 | Iterating over a shape visits each index exactly once, in row-major order | advance modelled with the carry loop; enumeration equals the lexicographic product. |
| C32 | Strided selections map indexes one-to-one and invertibly | Componentwise arithmetic on size_t values. |
| C33 | Materialising a lazy array preserves every element and stays in bounds | Array = shape plus index function; buffer as list; evaluation as writes at offsets. |
| C34 | Selecting, concatenating and replacing obey the array laws | Same array model. |
| C35 | Differences telescope: periodic flux differencing conserves the total | Finite sums over Z/Q/any ring. |
| C36 | Partitioning a shape or an array into N parts is exact and even | Integer division lemma. |
| C37 | The element count of a shape | Explicit truncation modulo 2^32. |
| C38 | Evenly spaced generators | Exact rationals. |
| C39 | Restriction after prolongation is the identity, and restriction conserves | Arrays over Q. |
| C40 | Splitting a block into children and recombining | Same. |
| C41 | The slope limiter is total-variation safe | Exact reals. |
| C42 | Quadratic/cubic/quartic solvers report exactly the real roots | Exact reals, with the code's formulas. |
| C43 | Linked lists are persistent and leak-free | Heap with reference counts; operations and destruction as heap transformers. |
| C44 | Fixed-size matrices form a ring with identity | Lists of lists over a ring (section parameter). |
| C45 | Sequences behave like fixed-length vectors | Lists of fixed length. |
| C46 | Powers of dimensional quantities carry the right units | Explicit unsigned arithmetic modulo 2^32; refuted for negative exponents, proved for nonnegative. |
| C47 | Direction vectors are normalised | Refuted; partial: for already-normalised inputs. |
| C48 | Gas dynamics: conserved and primitive states convert back and forth exactly | Exact reals, componentwise formulas. |
| C49 | The HLLE solvers are consistent, upwinding and mirror symmetric | Exact reals. |
| C50 | The characteristic decomposition of the Euler equations is correct | Exact reals, field. |
| C51 | Relativistic signal speeds never exceed the speed of light | Exact reals. |
| C52 | Two-body orbits conserve what they should | Exact reals with cos/sin. |
| C53 | Flux correction makes the adaptive mesh update conservative | Finite sums. |
| C54 | Guard-zone filling is consistent | Tree model plus block arrays. |
| C55 | Gather and scatter of variable-length data are inverse | Lists. |
| C56 | Strings survive the round trip through the file | Lists of characters; refuted for the empty string, proved for non-empty strings. |
| C57 | Command line beats restart file beats default | Update sequence of the config model with the group read from the file. |
| C58 | Numbered output files are distinct and sort by number | Decimal printing with zero padding; refuted from 10000 on. |
| C59 | require_dir makes the directory and its ancestors | Directory calls as a trace. |
| C60 | The Roe average linearises the flux difference | Exact reals; exact defect, refuted for the energy row. |
| C61 | HLLE updates keep the gas physical | Exact reals, convexity of the physical set. |
| C62 | The HLLC solver is a correct three-wave solver | Exact reals; refuted for strong collisions. |
| C63 | Relativistic primitive recovery | Exact reals, Newton loop with fuel; monotonicity of the pressure equation. |
| C64 | Geometric source terms and signal speeds | Coquelicot derivatives of the flux functions. |
| C65 | Orbital elements and states convert back and forth | Exact reals with an explicit atan2. |
| C66 | Evaluating an orbit terminates and is periodic | Newton iteration for Kepler's equation, contraction up to eccentricity 9/10. |
| C67 | Differences of orbital elements | Exact reals. |
| C68 | The mesh of vertex blocks is regular, balanced, refined where asked | Tree of arrays of pairs; passes then balancing. |
| C69 | One step of the disk scheme conserves | Whole-mesh step over an arbitrary flux; guard zones, gradients, fluxes, correction, update. |
| C70-C74 | Budgets of whole runs, time step, diagnostics | All of advance_u/advance_q, next_solution with its retry, source terms and ledgers. |
| C75 | Free stream on refined meshes | Same step model with constant data. |
| C76 | The live binary's mass and momentum accounts | The run model of C70-C74 with the elements arithmetic of C67; the totals of a step as sums over cells, read off independently of the tree. |
| C77 | The power-law atmosphere holds the mass it says | Masses as (improper) Riemann integrals of density_at, Coquelicot's is_RInt and is_lim. |
| C78 | The expanding envelop | Shell mass by the derivative of radius; the secant loop with fuel, the theorem gives fuel that is enough. |
| C79 | The jet nozzle's energy | Energy as an iterated integral over angle and time. |
| C80 | Mass and energy of the explosion program | Totals over the shells after any number of steps, against the gas that passes the outer face. |
| C81 | A gas at rest in the explosion program | Refuted; the exact momentum a shell gains. |
| C82 | Grid and time step of the explosion program | Radii, initial contents, zones per decade, signal paths in a step. |
| C83 | Shells keep mass | Positivity after a step. |
| C84 | Reductions | Existence, extremality, and the sorted list of true indexes. |
| C85 | Shock locator | Steepest drop, strict rise behind, halved slope ahead. |
| C86 | Time series of the explosion program | Reported radii against the cells; definedness refuted. |
| C87 | Budget of the cloud program | Sums over all cells against the fluxes through the inner and outer spheres, for runs. |
| C88 | Jet inflow | Fluxes of mass and energy against the nozzle state; energy refuted. |
| C89 | Cloud grid and time step | Closed forms of vertices, sums of volumes and areas, signal speeds; zones per decade refuted. |
| C90 | Cloud initial condition | Existence and positivity; two configurations compared, mass refuted. |
| C91 | A gas at rest in the cloud program | Refuted; the exact momenta a cell gains. |
| C92 | The mesh refinement sandbox | Starts, ends, number and size of steps, no new extrema; total kept for blocks of one size, refuted for several; zones in the message refuted. |
| C93 | The initial disk of the binary program | Axisymmetric, positive, rotating, drifting; exact set of points where it is not a number; balance exact without softening, refuted with. |
| C94 | The start of the binary program | Every usable configuration starts in a valid state with the profile in every cell; step, buffer rates, refusals; mass over a whole run; refuted for odd unrefined meshes, largest buffer rate, density floor. |
| C95 | Diagnostics of the cloud program | Every field of the file in terms of the gas states; totals; shock places; refuted for the upstream radius, the flow power and the largest power; one shell is undefined. |
| C96 | Array adapters | reshape, shift_by, freeze_axis, collect, where/read_indexes, zip, bounds_check against index arithmetic; refuted for positive shifts, axes frozen out of order and element counts beyond int. |
| C97 | Domain decomposition demonstration | Cell centres of all blocks tile the domain; file selections from access patterns; writing blocks in any order; refuted for grids finer than the domain. |
| C98 | How a step of the binary program can fail | All outcomes of an evaluation, a step and a run; exactly what is true of the gas for each exception; refuted for a binary that is not live. |
| C99 | Orbits in double arithmetic | Newton's method ends within 60 rounds for mean anomalies up to 2^16 - 3; refuted beyond 2^20; the loop to the periapse; the operations are those of IEEE 754. |
| C100 | Reconstruction, averages and grids in double arithmetic | Face values between cell and neighbour for limiter parameters up to 2 - 2^-48, refuted at 2; means; linspace: first point, order, error, cells; refuted for its last point. |
| C101 | File system helpers touch exactly what they are asked to | remove_recurse on trees without links, remove_file, listdir, isfile and isdir, require_dir; refuted for links, sockets and block devices, files in the way. |
| C102 | Clocks and schedules in double arithmetic | Number of marks and last-performed time over 2^20 intervals, end and accuracy of the time of a run when the steps are at least 2^-48 of the final time; refuted for shorter steps. |
| C103 | Messages between processes arrive once, whole and in order | All executions when receives name their source or lengths agree; refuted for any_source; requests: long messages right, short ones refuted. |
| C104 | Mass and energy budgets in double arithmetic | Inner face of the explosion program exactly closed; totals of a step and of a run up to rounding, for any fluxes; one step of the cloud program. |
| C105 | A complete run writes every output that is due, and no other | Numbers, solutions and times of all outputs, samples held by each checkpoint, exit code; the step after the loop; refuted: samples at the end, failures reported. |
| C106 | What is opened is closed exactly once | Communicator, Request, buffer_t without restriction; HDF5 classes under the exact guard; refuted for assignment, close, self-assignment, empty assignment. |
| C107 | Parts of data sets are written and resized exactly | Selections, disjoint writes, resizing, read back, rows of the time series file; refuted for partial reads, property lists. |
| C108 | A run that is killed and resumed any number of times leaves the same files | Binary program, resumed from the last checkpoint completed; refuted for any checkpoint and for the boilerplate and cloud programs. |
| C109 | The diagnostics file shows the gas that the run holds | Density, radial and azimuthal momentum per cell, body positions, disk mass and angular momentum as sums; every mesh except a single block of odd size. |
| C110 | A checkpoint file holds the whole state | Binary, cloud and boilerplate checkpoints and the diagnostics file, trees of up to 30 levels, any listing order; refuted for sedov. |
| C111 | A function that throws on another thread | Every tree, function, number of workers and order of events; std::async keeps the exception, the pool ends the process (refuted). |
| C112 | No zone of the cloud program is emptied in a step | Every configuration, grid, jet and gas with piecewise constant states (explicit room condition, shown for the program's grid); refuted for the default piecewise linear states. |
| C113 | The time series of the binary program is a closed account | Every mesh, state, schedule and length of run (sound speed by radius, no density floor in the linear scheme); the samples of every checkpoint. |
| C114 | The cloud program computes the same on any number of threads | Every configuration, grid, state, length of run, number of threads up to the radial zones, and every interleaving; race with more threads and failures that end the process refuted. |
| C115 | The boilerplate program carries its wave around the ring at unit speed | Every N, number of steps and tfinal: error bound of first order, bounds, variation, total, end of the loop; exact arithmetic. |
| C116 | Checkpoints of complete explosion and cloud runs account for mass and energy | Every configuration with intervals no shorter than a step: numbers, times and contents of the checkpoints of a run that ends; Newtonian runs end. MainModel.v puts the parts together. |
| C117 | A failed step of the disk program is rescued by the retry | Every mesh, setting and state: a lower bound on the density of every cell after an evaluation in safe mode (faces, changes of level and corrected fluxes included); no rejection while dt times the loss rate is at most 1; whole steps of first and second order. |
| C118 | The default Courant number does not empty a cell | Refuted for the default settings (density 1 next to 5 and 1/100, flow along the diagonal, Mach 10); proved for a quarter of a cell per step, any plm_theta up to 2, both modes. One cell and its stencil. |
| C119 | Complete runs of the mesh refinement sandbox leave the diagnostics they promise | Every configuration with dfi no shorter than a step: exit code, numbers, times and contents of the files (SandboxModel.v). Restart refuted: the option is never read. |
| C120 | The diagnostics file of the explosion program | Every data set by name for every state; rebuilding of Newtonian states; the exact record at time zero, which has two values that are not numbers (refuted for the default options) and is undefined when only one shell is hot (refuted for nr = 3). |
| C121 | No cell of the disk is emptied at a fifth of a cell per step | Lower bound on every cell of every mesh after one evaluation in either mode and either scheme; the densities are then not rejected, the first attempt of a step is not repeated for them, and it is the step taken if the bodies hold together (first order). |
| C122 | The output files of the cloud program | All 23 data sets by name for every state; no file for one shell; states with opposite polar momentum share one file; the time series has no row after any run (refuted) |
| C123 | The cloud program keeps the two hemispheres alike and starts no rotation | For every start the run of the mirror image is the mirror image of the run; every state and checkpoint of a new run has equal hemispheres and no azimuthal momentum |
| C124 | What a cell holds depends on its neighbourhood only | Explosion: the shells within k of a shell decide it after k steps; cloud: the zones within k times reconstruct_method times rk_order, in the L1 distance; the explosion's strength and the jet's options are unseen outside |
| C125 | The mass of the disk is a matter of units as long as the binary is not live | Two runs whose start differs by a factor differ by it after any number of steps, cell by cell and in every total; same steps; from the options disk_mass and mdot to the totals of the time series. Steps made at the first attempt |
| C126 | Cells that are empty or hold a value that is not a number | binary64 with infinities and NaN (Flocq); exact set of states rejected, exact condition for a NaN time step, end of the run loop; a NaN block hides its siblings' limits (refuted) |
| C127 | A value that is not a number in the explosion program | binary64 with infinities and NaN (Flocq), Newtonian equations; exact spread by one shell per step, nothing beyond; how a negative pressure starts it; length of the run does not depend on the gas |
| C128 | Values that are not numbers and the relativistic recovery | binary64 with infinities and NaN (Flocq); std::pow(x, 2) is any function that maps NaN to NaN; NaN input always rejected, returned density a positive number, pressure positive or NaN; that a returned state consists of numbers, or comes from a finite momentum, is refuted |
| C129 | When the clock of the explosion program gets to the final time | binary64 with infinities and NaN (Flocq); exact condition for the run loop to end, all doubles; that positive steps suffice is refuted |

## What is modelled, per source file

| file in /repo/src | modelled | not modelled |
|-------------------|----------|--------------|
| core_rational.hpp | all arithmetic, comparison, gcd | printing |
| core_tree.hpp | index arithmetic, lookup, contains, insert, update, refine, map, pair, folds | memory sharing (trees are values) |
| mesh_tree_operators.hpp | neighbours, balancing, vertex quadtree, get_cell_block, get_vertex_block | |
| mesh_prolong_restrict.hpp | all | |
| core_ndarray.hpp | shapes, access patterns, providers as index functions, evaluation to memory, threads, operators used by the claims | pretty printing, loading and dumping, bounds of size_t beyond the stated guards |
| core_ndarray_ops.hpp | select, concat, replace, difference, midpoint, zip_adjacent, extend_periodic, linspace, arange, divvy | the remaining small adapters |
| core_sequence.hpp, core_matrix.hpp, core_linked_list.hpp, core_dimensional.hpp, core_geometric.hpp | the operations the claims name | iterators, printing |
| core_thread_pool.hpp, app_parallel.hpp | pool, queue, workers, stop; parallel tree map; tasks that throw; evaluate_on with elements that throw | memory model weaker than sequential consistency |
| core_hdf5.hpp, app_serialize*.hpp | what is written and read back for strings, numbers, vectors, arrays, trees, configs, schedules; ownership of ids (HandleModel.v); selections, partial writes and reads, resizing, require_dataset with a property list (ExtentModel.v) | the HDF5 library itself (a file is a map from names to typed values; selections and resizing by their documented meaning), iteration of links other than by name |
| core_mpi.hpp | gather, scatter, all-to-all, typed messages; counts and displacements; send, recv, isend, irecv, get; ownership of communicators and requests (HandleModel.v) | the MPI library (its matching rules are part of the model), blocking of sends |
| app_config.hpp, app_schedule.hpp, app_filesystem.hpp | all that the claims name | permissions, mount points, busy directories |
| math_interpolation.hpp, math_polynomial.hpp | PLM gradient (exact and in double arithmetic), quadratic/cubic/quartic | the sign of zero |
| physics_euler.hpp, physics_iso2d.hpp, physics_srhd.hpp | state conversions, fluxes, wavespeeds, HLLE, HLLC, Roe averages, eigenvectors, sources; mass and energy flux of HLLE also in double arithmetic (DoubleBudgetModel.v); the relativistic recover_primitive in binary64 (NanSrhdModel.v) | |
| model_two_body.hpp | all, in exact arithmetic; the loops also in double arithmetic (DoubleModel.v) | printing |
| subprog_binary*.cpp | one cell and its stencil (DrainModel.v); kills and resumed runs (KillModel.v); samples of the time series (TimeSeriesModel.v); diagnostic fields (BinaryDiagModel.v); checkpoint and diagnostics files, entry by entry (CheckpointModel.v); reading of the options needed, initial disk, first solution, solver data, mesh, step, sources, ledgers, time step, diagnostics, schedule and restart | time series output, messages, run dimensions |
| subprog_sedov.cpp | schedule and restart logic; grid, initial condition, boundary conditions, time step, run loop, time series for both systems and the file they go to (ExtentModel.v); diagnostic fields and files (SedovDiagModel.v); the Newtonian step in binary64 (NanSedovModel.v) | messages on the terminal |
| subprog_cloud.cpp | schedule and restart logic; units, geometry, inflow, reconstruction, advance, next_solution, run loop, new_solution, diagnostic fields; the diagnostics file and the time series file (CloudFileModel.v); checkpoints (CheckpointModel.v); the run on threads (CloudThreadsModel.v) | initial_p (unused first version), print_run_dimensions |
| subprog_boilerplate.cpp | schedule and restart logic, main; initial wave, step and run loop (BoilerplateModel.v); checkpoint | messages |
| app_main.cpp | main (RunModel.v) | the execution time |
| model_atmosphere.hpp | power_law_atmosphere; the envelop model with its shells and root finder | floating-point rounding (a secant slope of exactly 0/0) |
| model_jet_nozzle.hpp | all | |
| post_shock_locator.hpp | all | |
| subprog_amrsand.cpp | initial condition, step, run loop, number of zones in the message; schedule, files and main (SandboxModel.v) | messages |
| subprog_partdom.cpp | all but the printing | HDF5's selection and write are modelled by their documented meaning |

## Findings

Behaviour of the code that contradicts what its users would expect. Those with a theorem name are machine-checked.

Trees and meshes
- `contains()` at an address that names a branch computes a shift by a negative number: undefined behaviour (`tree_contains_root_refuted`). Flux correction, guard-zone filling call it there. Proofs about those use the answer compiled x86-64 code gives (false).
- `find` and `at` on a branch throw `bad_variant_access` instead of a range error.
- `read_tree` reads addresses with `read_tree_index<2>` whatever the rank is. Names of addresses are undefined from level 31 on.
- `hilbert_index` passes the level where the side length belongs: whole halves of the domain collide (`hilbert_injective_refuted`).
- `get_cell_block` and `get_vertex_block`: undefined at branches, endless recursion two or more levels below a leaf (`cell_block_too_deep`, `cell_block_branch_refuted`, `cell_block_root_refuted`).
- `create_vertex_quadtree` asks the refinement criterion about the number of the pass, not the level of the block; with a negative focus_index blocks are refined that do not meet it (`mesh_refined_unasked_refuted`).
- `update` at level 0 ignores the coordinates of the address.

Arrays
- Iteration over a shape of rank two or more with a zero extent visits indexes, and evaluation writes outside the empty buffer (`iteration_zero_extent_refuted`, `evaluate_empty_array_refuted`).
- `volume` truncates to int (`volume_of_large_shape_refuted`, `evaluate_large_array_refuted`).
- Threads that outnumber the rows race (`evaluate_on_more_threads_than_rows_races_refuted`).
- `arange` misses or adds elements unless final mod step <= start mod step (`arange_all_steps_refuted`); `difference_on_axis` of an empty axis has extent 2^64-1 (`difference_of_empty_axis_refuted`).
- `restrict_extrinsic` drops the last cell of an odd extent (`restrict_extrinsic_odd_extent_refuted`); `combine_verts` throws in rank 3 (`combine_verts_three_axes_refuted`); `replace` does not check that the region lies in the array; `within` rejects valid strided selections (`selection_within_complete_refuted`).
- `set` and `update` of a sequence out of range do nothing, silently (`set_out_of_range_is_silent`).
- `shift_by` with a positive delta reads before the first element (`shift_right_refuted`); freezing axes named out of order exchanges the values, naming one twice is undefined (`freeze_order_refuted`, `freeze_twice_refuted`); `reshape` compares element counts as int (`reshape_large_refuted`).
- Zero blocks are accepted by `create_access_pattern_array` (`domain_decomposition_zero_blocks_refuted`). The proposed grid of processes does not look at the domain: 64 cells for 7 processes throw (`partdom_enough_cells_refuted`).

Numbers
- Zeros with different denominators are unequal rationals (`rational_eq_by_value_refuted`); the Runge-Kutta counter overflows at step 536870911 (`step_counter_overflow_refuted`).
- `prime_factors` overflows exactly for primes from 2147395600 on and does not end for 0 (`prime_factors_undefined`, `prime_factors_of_zero_diverges`).
- Powers of dimensional quantities with negative exponents get wrong units (`pow_units_refuted`); `unit_vector_t` is not normalised by its constructor (`unit_vector_normalised_refuted`).
- The non-real branch of the quartic solver has a sign typo (harmless).

Threads, schedules, restarts, configuration, files
- `stop_all` can lose its wakeup and hang (`pool_stop_terminates_refuted`); an exception in a task ends the process.
- sedov, cloud and boilerplate write the checkpoint before it is marked as done: the resumed run overwrites it and drops outputs (`simple_restart_refuted`); sedov opens a group that the file does not have (`sedov_restart_refuted`).
- `std::stoi` accepts "12x". `extension` looks at the last dot of the whole path (`path_extension_refuted`). Numbered files do not sort from 10000 on (`numbered_files_sort_refuted`). `require_dir` makes absolute paths below the current directory (`require_dir_absolute_refuted`).
- An empty string comes back from a file as one null character (`empty_string_refuted`); an option name of exactly 1024 characters is lost (`config_name_1024_refuted`); rewriting a string with another length throws.
- Variable-length gathers beyond 2^31-1 bytes overflow (`all_gatherv_overflow_refuted`); empty pieces take the address of an element that does not exist (`scatterv_empty_refuted`).

Gas dynamics
- Roe average: the documented identity fails in the energy row (`roe_linearisation_refuted`).
- HLLC: for head-on streams above about 1.6 sound speeds the outer waves cross (`hllc_mirror_refuted`).
- Relativistic recovery: absolute tolerance, so dilute gas comes back 31 percent wrong (`recover_dilute_refuted`).
- Radial source terms leave out the centrifugal term (`radial_source_refuted`); `max_wavespeed` does not bound signals through slanted faces (`max_wavespeed_slanted_refuted`).

Binary program
- `mean_anomaly` ignores tau, `delta_a_over_a` uses the energy of the lab frame, far apart elements are not reduced (`mean_anomaly_refuted`, `delta_a_boost_refuted`, `nearest_far_refuted`); clockwise binaries are accepted but misread (`clockwise_refuted`).
- With conserve_linear_p=0 and fixed_dt=0 no step can be taken on a refined mesh: `maximum_timestep` walks the wrong tree (`timestep_refuted`).
- With axisymmetric_cs2=0 (the default) the flux through opposite edges of the domain differs, and mass leaks at the edge (`mass_run_refuted`: a run of one step, 2 x 2 cells, gas at rest, mass ratio 1/2).
- Mass put in by the density floor and momentum ejected by the buffer are not booked; work_done_on is summed block by block from squares, so it depends on the block decomposition, and is not set with conserve_linear_p=0.
- Options reconstruct_method and riemann_solver are checked but never read.
- The momentum a live binary gains in a step exceeds impulse plus accreted momentum by impulse x accreted mass / mass, because both element changes start from the same state and are added (from `live_binary`).

Atmospheres and jets
- `power_law_atmosphere::with_total_mass` divides by a total mass that already contains the old coefficient, so it is right only if that was 1 (`with_total_mass_refuted`).
- The envelop's cloud_mass leaves out the Lorentz factor; density_at and power_law_cloud call each other without end if envelop_mass < m1; solve_secant has no cap on its iterations.
- The jet with structure exponent 1 injects twice the asked energy, not ten percent more (`jet_energy_structure_refuted`); the nozzle takes 3e10 for the speed of light, the envelop and the cloud program 2.998e10.

Explosion program
- A gas at rest with uniform pressure is driven outward in every shell of the explosion program: the face pressures and the source term evaluated at the mid radius do not cancel (`still_gas_is_driven_newtonian`, `still_gas_is_driven_relativistic`).
- nr is documented as zones per decade, but int(decades nr) zones cover decades + 1/2 (`zones_per_decade_refuted`); the explosion is documented between 0.5 and 1, but begins at 0.316 (`explosion_inner_edge_refuted`).
- With newtonian=1 the time step ignores the sound speed; a hot explosion is crossed by sound several times per step (`sound_step_refuted`).
- The time series of the explosion program reads the cell before the downstream cell without a check; whenever the pressure falls outward everywhere, that cell is number 0 and the read is undefined (`time_series_undefined`).
- shock_radius is the inner face of the cell before the entropy drop; the drop is across its outer face (`shock_radius_refuted`).
- find_index_of_pressure_plateau_ahead returns 0 if there is no plateau inside the array or the starting cell is 0 or 1, so "upstream" may be the innermost cell (`plateau_ahead_refuted`). The shock velocity is 0/0 for equal densities.
- Cloud program, jet energy (C88): "total energy to be injected" is not what enters; a slow jet injects less than 2 jet_gamma_beta times the nominal power.
- Cloud program, cloud items (C90): cloud_mass, cloud_cutoff and density_index2 have no effect on the physical initial condition; they only set the unit of mass.
- Cloud program, zones (C89): nr zones per decade only if num_decades * nr is whole.
- Cloud program, gas at rest (C91): uniform gas is driven outward and in the polar direction in every step (`cloud_still_gas_is_driven`).
- Mesh refinement sandbox (C92): there is no flux correction, so the total density is not kept where blocks of two sizes meet (`sandbox_conserves_refuted`); the zones in the message are vertices; the item `restart` is never read; after the loop one more step is computed, its result thrown away, and a diagnostics file may be written for it; `next_schedule` compares the time before the step.
- Initial disk of the binary program (C93): the squared rotation speed is negative at large radii for small Mach numbers (every point beyond disk_radius for Mach 1 and less; radius 8 for Mach 3 with the other options at their defaults), and std::sqrt then fills the disk with NaN (`disk_numbers_refuted`). With softening, the disk is not in balance: the profile softens with 1/(r + rs), gravity with 1/sqrt(r^2 + rs^2) (`disk_balance_refuted`).
- Start of the binary program (C94): block_size odd and depth 0 puts a cell centre at the origin, where the profile is 0/0 (`binary_starts_refuted`). buffer_damping_rate is documented as the maximum rate, but is the rate at distance domain_radius; the corners get up to twice that (`buffer_rates_refuted`). density_floor is documented relative to the largest density, but is multiplied by disk_mass (`density_floor_refuted`). The recommended step ignores the sound speed.
- Cloud diagnostics (C95): shock_upstream_radius may lie inside shock_midpoint_radius (`cloud_upstream_refuted`; always when the shock is in the second shell, `cloud_shock_places`); postshock_flow_power counts the mean area of the two faces of a shell, radial_energy_flow only the inner area, so the two differ by (1 + (r_out/r_in)^2) / 2 (`cloud_energy_flow_refuted`); postshock_flow_power_max is a local maximum and can be half of the power two shells behind the shock (`cloud_power_max_refuted`); with a single shell the shock locator reads an element of an empty array (`cloud_diagnostics_one_shell`).
- Binary that is not live (C98): the scheme computes the changes of the orbital elements in every step, also before begin_live_binary, and throws when the bodies would come apart, so gas can stop a run with a prescribed orbit (`frozen_binary_refuted`: gas turning at speed 1000, binary live from time 10 on, no run gets past its first step).
- Orbits in double arithmetic (C99): compute_two_body_state does not reduce the mean anomaly to one orbit. From omega * t = 2^20 on (166886 orbits; observed in IEEE arithmetic from 2^19 on, for 8 percent of the times at eccentricity 1/4) no double solves Kepler's equation to the tolerance 1e-10 for some times, and solve_newton_rapheson loops for ever (`orbit_stalls_refuted`). The loop in compute_two_body_state never gets past a time of -2^57 (`after_stalls_refuted`).
- Reconstruction in double arithmetic (C100): with plm_theta = 2, which the documentation of the binary program allows, positive densities 10, 1, 2^-60 give a density of exactly zero at a face (`face_empty_refuted`). The polar grid of the cloud program, linspace(0, M_PI, nr + 1), ends one unit in the last place beyond M_PI for nr = 99 and below or beyond it for about one nr in eight (`grid_end_refuted`).
- File system helpers (C101): remove_recurse uses stat, which follows symbolic links: a link to a directory elsewhere has the contents of that directory removed, after which rmdir on the link fails and the call returns -1 with the tree still there (`remove_through_link_refuted`); a tree with a link to one of its own files is removed or not depending on the order of listing (`remove_order_refuted`). isfile and isdir test `st_mode & S_IFREG` and `st_mode & S_IFDIR` instead of comparing the type: a socket passes both, a block device is a directory (`isfile_isdir_refuted`). require_dir ignores the results of mkdir, so that a file in the way goes unnoticed (`require_dir_blocked_refuted`).
- Clocks in double arithmetic (C102): a time step below half a unit in the last place of the time leaves the time as it is and nothing notices, so the run goes on for ever (`clock_stalls_refuted`); a collapsing time step is not detected in any of the programs.
- Messages (C103): recv with any_source probes one message and may then receive another, which is cut off (the program aborts) or padded with zeros (`any_source_refuted`); the MPI standard shows this as a wrong program. isend and irecv hand the address of a local string to the library and then move the string: up to 15 characters (libstdc++), which includes every int and double, the characters move too and the library reads or writes dead storage unless it transfers the message before the call returns (`short_requests_refuted`). irecv returns an empty, completed request when the message has not arrived yet (`early_irecv_refuted`).
- End of a run (C105): the outputs due at the final time are written by one more step after the loop, so they hold a solution beyond the final time, and if that step throws, the program ends with an exception although the run is complete (`last_step_fails`). The state of that step is dropped: samples of the time series taken after the last checkpoint are in no file (`samples_kept_refuted`). Every output after the first one is made one step after it becomes due (`output_time`). app_main returns 0 for an unknown sub-program (`failure_reported_refuted`); its try block is commented out, so exceptions end the process by std::terminate.
- Ownership (C106): the move assignment of h5::detail::Link overwrites its id without closing it, so `file = h5::File("b", "w")` leaves the file that was open before open to the end of the process; it cannot be created again (`assigned_owner_leaks`, `files_closed_refuted`). close() of PropertyList, Datatype and Dataspace does not reset the id, so the destructor closes it again; Dataspace checks the result, throws in its destructor, and the process is terminated (`close_by_hand_refuted`). Assigning a Datatype or Dataspace to itself closes the id before copying it and throws (`self_assignment_refuted`); so does assigning an empty Datatype (`empty_assignment_refuted`). Self-assignment of a Communicator or buffer_t leaves it empty.
- Parts of data sets (C107): Dataset::read into a std::vector or array makes room for the whole extent of the space, not for what is selected, so reading any proper part throws (`partial_read_refuted`); the library can write parts but not read them. require_dataset compares the creation property list of an existing data set with the default list instead of the one given: a chunked data set, such as the columns of the time series file, cannot be asked for twice (`chunked_required_twice_refuted`), and a contiguous one is returned to a caller who asked for chunks (`chunk_size_ignored_refuted`). The cloud program makes a time series file with the columns time and shock_radius, but its write_time_series is empty (subprog_cloud.cpp:801-803), so the columns stay empty in every run.
- Killed and resumed runs (C108): outputs are emptied and rewritten in place, so resuming from an older checkpoint, being killed while a file that was whole is rewritten, and then resuming from a newer checkpoint leaves that file torn for good (`resumed_anywhere_refuted`). The boilerplate and cloud programs save their schedule before the checkpoint is marked as done: the resumed run gives its next checkpoint the number of the one it came from and overwrites it (`simple_resumes_refuted`).
- Checkpoint files (C110): the sedov program writes its configuration to the group "config" and looks for "run_config" on restart, so every restart of it throws (`sedov_checkpoint_refuted`). The three components of a conserved tuple are stored in the order in which std::tuple lays them out, which the language leaves to the implementation (libstdc++ lays them out in reverse), so such files are read back correctly only by a program built with the same library; the model stores them in the order of the components. The reader of a diagnostics file leaves out the configuration.
- Functions that throw on another thread (C111): enqueue calls the function without a handler and never calls set_exception on the promise, so an exception leaves the start function of the worker and std::terminate ends the process (`pool_map_throws_refuted`). All block tasks of the binary scheme run on such a pool (subprog_binary_scheme.cpp 12, 141, 808-827, 924-943, 1096-1100), so negative densities found by recover_primitive (physics_iso2d.hpp 359, 387) never reach the handler in binary::next_solution (subprog_binary.cpp 285-292), which would repeat the step in safe mode; it sees only the exceptions of the checks on the main thread (subprog_binary_scheme.cpp 749, 781). The threads of evaluate_on (app_parallel.hpp 86), used by the cloud program, end the process in the same way when recover_primitive of physics_srhd.hpp fails.
- Emptied zones (C112): with the default settings (reconstruct_method 2, plm_theta 1.2, cfl_number 0.4, rk_order 1) gas whose neighbours part quickly is more than swept out of a zone in one step, which leaves a negative mass; the next step cannot recover a state there and throws on a thread of evaluate_on, which ends the process (`plm_empties_cell_refuted`, C111). The slopes are taken of gamma-beta, so the gas at a face of a zone at rest can have any Lorentz factor and carry any multiple of the zone's mass per unit of volume; no time step limited by the speed of light alone excludes this. With reconstruct_method 1 this cannot happen at the default cfl_number (`program_keeps_mass`). The temperature floor in recover_primitive is applied after the Lorentz factor is known and lowers the recovered four-velocity (by the factor W^2/(W^2+floor) for cold gas, `dust_recovered`).
- Evaluation on threads (C114): evaluate_on is documented as a drop-in replacement for nd::to_shared (app_parallel.hpp 71-72). It gives the same array in every order of the threads as long as no element throws and there are at least as many rows as threads. Where to_shared throws, evaluate_on ends the process (`failures_reach_caller_refuted`): the cloud program never gets to handle a zone whose state cannot be recovered. With fewer radial zones than threads (12 by default) the threads race (`cloud_few_zones_race_refuted`).
- Courant number of the disk program (C118): with the default cfl_number 0.4 and plm_theta 1.8 the reconstruction puts up to 1.89 times the density of a cell on its two downstream faces, so that a flow along the diagonal takes out 1.5 times what the cell holds (`default_courant_refuted`). The check of the densities catches this and the second attempt is safe (C117), at a tenth of the time step. A quarter instead of 0.4 would do without (`quarter_cell_keeps_gas`).
- Mesh refinement sandbox (C119): the option restart is accepted and never looked at; a run asked to restart begins from the initial condition and overwrites the files of the first run (`sandbox_restart_ignored`).
- First output of the explosion program (C120): at time zero the velocities are all zero and the up- and downstream cells are the same, so that shock_radius_interpolated and shock_velocity of the first row of every time series are 0/0 (`first_record`, `first_velocity_refuted`). With so few zones that only the innermost one is inside the explosion (nr = 3 with the default outer radius), cell -1 is read (`first_output_refuted`).
- Files of the cloud program (C122): write_time_series has an empty body although the task is scheduled, performed and counted, and prepare_filesystem makes columns "time" and "shock_radius": they stay without rows (`cloud_series_refuted`). The diagnostics file has the radial component of the four-velocity only; gas that streams towards the pole and gas that streams to the equator give the same file (`cloud_file_mirrored`).
- Values that are not numbers (C126): the checks of the disk program compare with `<`, which is false for a NaN, so a density of zero or NaN passes them. Its cell has a NaN signal speed. If it is the first cell of the first block, the time step and the time become NaN, `simulation_should_continue` is false, and the program writes its last output and returns 0 far from tfinal. Elsewhere in a block it is passed over by `nd::max` and the run goes on with it. If it is the first cell of the first block of a group of four, `std::min` passes over the whole group and the step can exceed the limits of the other three blocks.
- Values that are not numbers in the explosion program (C127): `recover_primitive` is called with temperature floor 0.0, for which its repair of negative pressures is never taken. A shell with a negative squared sound speed has NaN wavespeeds; `std::max(0, NaN)` and `std::min(0, NaN)` are 0, so the flux at its outer face is 0/0. It and its outer neighbour lose their mass to NaN in that step, the rest of the grid follows at one shell per step, and no check ends the loop: the step length depends on the vertices only, so the loop takes as many steps as with sound gas. Not modelled here: contraction to fused multiply-add by the compiler, and the tasks between the steps (diagnostics, output), which could throw.
- Values that are not numbers and the relativistic recovery (C128): `srhd::recover_primitive` rejects every state with a NaN, so the relativistic explosion ends in the step after one appears, unlike the Newtonian one (C127). But its own result may hold NaNs: the checks `<= 0.0` for density and pressure are false for a NaN. With D = 2^-16, S1 = 1, tau = -2^-16 (all finite, no energy) the residual is below the tolerance in the first pass, where the slope is 0/0, and a state with NaN pressure and velocities is returned, with or without a temperature floor. The check for a NaN Lorentz factor never fires, the root finder having excluded that. An infinite momentum (or one whose square overflows) passes, since the squared velocity is cut off at 1 - 1e-10.
- A clock that stands still (C129): the explosion program adds the same dt to its time in every step. If the sum rounds to the time it had (time 1, dt 2^-54), the loop never ends and says nothing. This needs a radial spacing some 2^-53 of the time reached, far finer than any grid in use, or a grid whose first two vertices coincide (dt = 0).
- Seen while reading, outside the properties: `derivable_tuple_t::operator==` and `!=` (core_tuple.hpp 230-231) call `to_sequenc`, which does not exist, and would not compile if used; a restart of the explosion or cloud program with another `outdir` does not create that directory (subprog_sedov.cpp 598-600).
- On seeded/LOG.jsonl: until the entries that carry an `outcome` field, only attempts that made a targeted theorem fail were written to the log. The 22 earlier attempts that did not (edits that did not type-check, or that no theorem of the targeted properties noticed) were added afterwards, out of order, with their outcome. Of the edits among them that had never been killed, those of freeze_axis, shift_by, arr_all, reshape_backed and t_series (reverse order) were run again and are killed by theorems of other properties than first aimed at (C96, C84, C105). Not run again for lack of time: ediff_cm (velocity components exchanged), cconvert (string reversed), shape_contains (one past the end), and three of the cloud setup (inflow, make_jet_nozzle_model, make_reference_units), which at their time made theorems of other properties fail or none; whether the present theorems notice them is open. The failures counted include proofs that broke for syntactic reasons, so a kill shows that the proof depends on the definition, not always that the claim became false.

## Axioms per theorem (from Print Assumptions)

All are axioms of the Coq standard library.

- none (closed under the global context): rational_values_canonical, rational_add_exact, rational_sub_exact, rational_mul_exact, rational_div_exact, rational_div_by_zero_throws, rational_make_exact, rational_make_zero_den_throws, rational_compare_correct, rational_eq_spec, rational_ne_is_not_eq, rational_eq_by_value_refuted, step_counter_exact, step_counter_exact_from, step_counter_overflow_refuted, tree_children_parent, tree_moves_in_range, tree_next_then_prev, tree_prev_then_next, tree_valid_decides, tree_index_equality, tree_leaves_found, tree_leaves_tile, tree_address_is_node_or_below_leaf, tree_membership_agrees, tree_out_of_range_rejected, tree_contains_root_refuted, tree_insert_spec, tree_insert_at_branch_throws, tree_rebuilt_in_any_order, tree_file_roundtrip, tree_name_roundtrip, tree_name_injective, tree_name_wrong_rank_rejected, tree_name_level_limit, tree_name_fixed_width, removes_exactly_the_tree, remove_not_a_directory, remove_through_link_refuted, remove_order_refuted, remove_file_correct, listdir_correct, isfile_isdir_correct, isfile_isdir_refuted, stat_not_a_link, require_dir_correct, require_dir_blocked_refuted, messages_arrive, receives_complete, any_source_refuted, long_requests, short_requests_refuted, early_irecv_refuted, typed_requests, failure_reported_refuted, app_main_runs, handles_owned, communicators_requests_buffers_owned, file_created_again, assigned_owner_leaks, files_closed_refuted, close_by_hand_refuted, self_assignment_refuted, empty_assignment_refuted, selection_correct, write_changes_selection, disjoint_writes_commute, read_all_correct, partial_read_refuted, number_read_back, set_extent_keeps, chunked_required_twice_refuted, chunk_size_ignored_refuted, rows_written, series_of_a_run, skipped_rows_are_filled, killed_and_resumed, resumed_anywhere_refuted, simple_resumes_refuted, tree_map_laws, tree_binary_op_same_shape, tree_binary_op_other_shape_throws, tree_any_all_are_over_leaves, tree_pair_indexes_total, tree_front_is_first_leaf, binary_checkpoint_through_file, binary_checkpoint_complete, diagnostics_through_file, cloud_checkpoint_through_file, boilerplate_checkpoint_through_file, sedov_checkpoint_refuted, binary_file_agrees, async_map_throws, pool_map_answers, pool_map_throws_refuted, pool_without_failures, failed_task_never_answers, failed_task_ends_the_process, evaluate_drop_in, cloud_few_zones_race_refuted, tree_update_spec, tree_update_below_leaf_throws, tree_refine_spec, tree_refine_all_leaves, balance_ends_balanced, balance_keeps_balanced, balance_minimal, hilbert_injective_refuted, hilbert_defined, hilbert_curve_injective, pool_fifo_exactly_once, pool_exits_only_when_empty, pool_all_tasks_done_after_stop, pool_runs_all_tasks, pool_stop_terminates_refuted, pool_stop_terminates, parallel_map_submits, parallel_map_correct, parallel_map_completes, scheduled_tasks_run_in_order, scheduled_tasks_unregistered, scheduled_tasks_effect, binary_restart_exact, simple_restart_refuted, simple_restart_overwrites, sedov_restart_refuted, other_restarts_open, config_after_updates, config_update_accepted, config_get, config_update, config_text_meaning, argv_pairs_cut_at_first, argv_map, argv_order_irrelevant, path_join_split, path_split_join, path_parent, path_parent_without_slash, path_extension, path_no_dot_no_extension, path_extension_refuted, prime_factors_correct, prime_factors_undefined, prime_factors_every_number_refuted, prime_factors_of_zero_diverges, prime_factors_of_one, process_grid_uses_every_process, domain_decomposition_tiles, domain_decomposition_throws, domain_decomposition_zero_blocks_refuted, evaluate_on_threads, evaluate_on_threads_terminate, evaluate_on_more_threads_than_rows_races_refuted, row_major_offsets, iteration_visits_each_index_once, iteration_is_a_fold, iteration_zero_extent_refuted, selection_counts, selection_round_trip, selection_generates, selection_within_is_safe, selection_within_exact_for_unit_jumps, selection_within_complete_refuted, evaluate_preserves_elements, evaluate_large_array_refuted, evaluate_empty_array_refuted, select_of_concat_gives_the_parts, array_is_concat_of_its_parts, concat_throws_exactly, replace_inside_and_outside, replace_mismatched_shape_throws, select_first_and_final, extend_periodic_reads_modulo, differences_telescope, difference_of_empty_axis_refuted, partition_is_exact_and_even, volume_is_the_product, volume_in_general, volume_of_large_shape_refuted, arange_elements, arange_unit_step, arange_all_steps_refuted, coarsen_after_prolong_cells, coarsen_after_prolong_verts, coarsen_after_refine_cells, restrict_extrinsic_conserves, restrict_cells_conserves_mean, restrict_extrinsic_odd_extent_refuted, combine_after_refine_cells, combine_after_refine_verts, combine_verts_three_axes_refuted, bisect_cells_and_join, bisect_verts_and_join, linked_lists_refine_pure_lists, linked_lists_do_not_leak, pure_equality_is_equality, product_elements, product_associative, product_distributes_left, product_distributes_right, identity_is_unit, sums_form_a_monoid, diagonal_products, vector_products, matrix_equality, at_in_range_or_throws, update_changes_one, set_changes_one, set_out_of_range_is_silent, reverse_is_rev, reverse_involutive, concat_is_app, append_prepend_laws, head_tail_laws, init_last_laws, map_elementwise, apply_to_elementwise, binary_op_elementwise, sum_is_fold, all_any_are_folds, min_max_are_bounds, transpose_involutive, pow_units_right_iff, pow_accepts_integral_results, integer_powers_of_negative_units_rejected, pow_units_refuted, product_units, ratio_undoes_product, cell_block_root_refuted, scatterv_delivers, displacements_are_totals, all_gatherv_collects, gather_after_scatter, scatterv_wrong_count, all_gatherv_overflow_refuted, scatterv_empty_refuted, all_gatherv_empty_refuted, all_to_all_transposes, all_to_all_wrong_count, typed_message, typed_message_wrong_size, string_round_trip, empty_string_refuted, string_rewrite, number_round_trip, vector_round_trip, list_round_trip, array_round_trip, read_other_type_refused, config_through_file, config_through_file_same, config_name_1024_refuted, schedule_through_file, run_config_precedence, config_file_roundtrip, numbered_files_distinct, numbered_files_sort, numbered_files_sort_refuted, require_dir_creates_ancestors, require_dir_absolute_refuted, any_correct, all_correct, where_correct, sandbox_conserves_refuted, reshape_keeps_the_sequence, reshape_throws, reshape_large_refuted, shift_left, shift_right_refuted, shift_throws, freeze_one_axis, freeze_throws, freeze_several_axes, freeze_order_refuted, freeze_twice_refuted, collect_applies_to_rows, collect_throws, sums_along_an_axis, read_where, unzip_zip, zip_throws, bounds_check_correct, partdom_one_block_per_process.

- `ClassicalDedekindReals.sig_forall_dec`: unit_vector_normalised_iff, axis_out_of_range, flux_correction_refuted, blocks_have_field, hyperslab_is_the_pattern, writing_to_a_pattern.

- `ClassicalDedekindReals.sig_forall_dec`, `FunctionalExtensionality.functional_extensionality_dep`: binary_run_outputs, output_time, last_step_fails, loop_outputs, boilerplate_run_outputs, simple_run_outputs, samples_kept_refuted, sedov_run_series, ring_step, explosion_reach, disk_totals_units, schedule_last_is_multiple, schedule_never_lags, schedule_due_at_crossings, advection_conserves_total, linspace_evenly_spaced, plm_is_minmod, plm_zero_at_extrema, plm_sign, plm_bounded, plm_face_values, plm_exact_on_linear_data, plm_negation, plm_reversal, plm_shift, plm_componentwise, parabola_vertex_exact, unit_vector_normalised_refuted, axis_vectors_orthonormal, axis_projection, default_direction, euler_recover_after_conserve, euler_conserve_after_recover, euler_recover_pressure, iso_recover_after_conserve, iso_conserve_after_recover, iso_negative_density_throws, angmom_recover_after_conserve, angmom_conserve_after_recover, linear_and_angular_forms_agree, linear_to_angular_and_back, sound_speed_below_light, sound_speed_gamma_bound_sharp, flux_correction_matches, flux_correction_elsewhere, flux_correction_conserves, flux_correction_conserves_periodic, cell_block_means, cell_block_uniform, extend_means, vertex_block_regular, cell_block_too_deep, cell_block_branch_refuted, radial_sources_agree, radial_sources_momentum, radial_source_refuted, angmom_flux_of_state, wrap_sound, wrap_terminates, clamp_range, nearest_minimal, nearest_far_refuted, mesh_cells, step_below_every_width, min_correct, max_correct, empty_reductions, drop_found, maximum_behind, maximum_pressure_behind, shock_velocity_newtonian, buffer_idle_at_start, cell_centers_tile_the_domain, writing_all_blocks_fills_the_file, partdom_file, partdom_throws, partdom_enough_cells_refuted.

- `ClassicalDedekindReals.sig_forall_dec`, `ClassicalDedekindReals.sig_not_dec`, `FunctionalExtensionality.functional_extensionality_dep`: diagnostic_fields_exact, no_cell_at_origin, safe_step_density, safe_step_keeps, quarter_cell_keeps_gas, default_courant_refuted, sandbox_restart_ignored, newtonian_fields_rebuild, any_step_density, any_step_keeps, disk_time_step_units, euler_hlle_consistent, euler_hlle_upwind, euler_hlle_direction_reversal, euler_hlle_mirror, iso_hlle_consistent, iso_hlle_upwind, iso_hlle_direction_reversal, iso_hlle_mirror, srhd_hlle_consistent, srhd_hlle_upwind, srhd_hlle_direction_reversal, srhd_hlle_mirror, left_right_inverse, jacobian_times_right, left_times_jacobian, jacobian_decomposition, signal_speeds_below_light, flow_speed_below_light, signal_speeds_add_relativistically, orbit_conserved, full_state_conserved, roe_average_symmetric, roe_average_of_equal_states, roe_average_between, roe_linearisation_defect, roe_linearisation_equal_velocities, roe_linearisation_refuted, euler_hlle_update_physical, iso_hlle_update_physical, srhd_hlle_update_admissible, hllc_never_throws, hllc_wave_fan, hllc_exact_contact, hllc_consistent, hllc_direction_reversal, hllc_mirror, hllc_mirror_refuted, hllc_ordered, true_pressure_is_root, root_unique, recover_accurate, recover_static_exact, recover_sound, recover_lorentz_cap, recover_dilute_refuted, max_wavespeed_exact, max_wavespeed_bounds, max_wavespeed_slanted, max_wavespeed_slanted_refuted, iso_roe_linearises, full_state_periapsis, delta_a_boost_refuted, mesh_is_regular, mesh_refined_where_asked, step_conserves, step_conserves_alike, angular_momentum_step, disk_mass_exact, disk_angular_momentum_exact, timestep_bounds_signals, free_stream, explosion_budget_newtonian, explosion_budget_relativistic, still_gas_is_driven_newtonian, still_gas_is_driven_relativistic, signals_stay_in_shells, sound_step_refuted, shells_keep_mass_newtonian, shells_keep_mass_relativistic, shock_velocity_relativistic, cloud_geometry, cloud_step_radial, sandbox_no_new_extrema, sandbox_conserves, sandbox_zones, disk_is_a_disk, disk_numbers, disk_numbers_square.

- `ClassicalDedekindReals.sig_forall_dec`, `ClassicalDedekindReals.sig_not_dec`, `Classical_Prop.classic`, `FunctionalExtensionality.functional_extensionality_dep`: faces_in_doubles, faces_positive, faces_of_in_doubles, faces_of_positive, face_empty_refuted, means_in_doubles, four_means_in_doubles, grid_in_doubles, grid_cells, block_grid_ends, grid_end_refuted, schedule_in_doubles, due_in_doubles, run_in_doubles, binary_run_in_doubles, clock_stalls_refuted, inner_face_closed, shells_step, shells_budget, shells_conserved, cloud_step, cells_keep_mass, program_grid_roomy, program_keeps_mass, plm_empties_cell_refuted, time_series_accounts, cloud_stage_on_threads, cloud_run_on_threads, cloud_failure_ends_process, emptied_shell_ends_process, failures_reach_caller_refuted, wave_moves_at_unit_speed, ring_run_ends, boilerplate_files, explosion_checkpoints_relativistic, explosion_checkpoints_newtonian, cloud_checkpoints, newtonian_runs_end, safe_step_not_rejected, failed_step_rescued, sandbox_files, sandbox_restarts_refuted, explosion_file, first_record, first_velocity_refuted, first_output_refuted, any_step_not_rejected, mild_attempt, mild_step_taken, cloud_file, cloud_file_one_shell, cloud_file_mirrored, cloud_series_refuted, cloud_run_mirrored, cloud_no_rotation, cloud_hemispheres, cloud_checkpoints_alike, explosion_unseen, cloud_reach, cloud_jet_unfelt, first_attempts_are_steps, disk_run_units, disk_start_units, disk_mass_is_a_unit, cubic_roots_exact, quartic_roots_exact, quartic_roots_multiplicity, jacobian_is_derivative, exact_orbit_gravitates, state_at_accurate, euler_uniform_flow_steady, srhd_uniform_flow_steady, euler_source_unique, angmom_uniform_flow_steady, iso_jacobian_is_derivative, elements_describe_state, elements_unbound_throws, elements_roundtrip, clockwise_refuted, state_at_terminates, state_at_periodic, full_state_terminates, full_state_periodic, diff_describes, tau_whole_periods, delta_a_is_derivative, mean_anomaly_value, mean_anomaly_refuted, refinement_radius_antitone, mesh_refined_unasked_refuted, run_keeps_valid, angular_momentum_run, mass_run, mass_run_floor, mass_run_refuted, accretion_run, time_run, timestep_refuted, uniform_density, uniform_density_stays, live_binary, binary_mass_run, atmosphere_masses, atmosphere_continuous, with_total_mass_scaled, with_total_mass_from_default, with_total_mass_refuted, envelop_shells_hold_mass, mass_coordinate_found, envelop_velocity, jet_energy, jet_energy_exponent_one, jet_energy_structure_refuted, jet_base_carries_luminosity, new_run_grid, zones_per_decade_refuted, explosion_inner_edge_refuted, shock_found, plateau_ahead, plateau_ahead_refuted, time_series_value, time_series_undefined, shock_radius_refuted, cloud_budget, cloud_jet_inflow, cloud_jet_power, cloud_jet_run, cloud_jet_energy_refuted, cloud_grid, cloud_step_polar, cloud_zones_refuted, cloud_starts, cloud_items_only_scale, cloud_mass_refuted, cloud_still_gas_is_driven, sandbox_run, disk_numbers_refuted, disk_balance, disk_balance_refuted, binary_starts, binary_first_step, binary_method_refused, binary_starts_refuted, buffer_rates, buffer_rates_refuted, density_floor_refuted, binary_run, cloud_diagnostics, cloud_diagnostic_totals, cloud_shock_places, cloud_energy_flow_refuted, cloud_diagnostics_one_shell, cloud_power_max_refuted, cloud_upstream_refuted, advance_outcomes, advance_succeeds, step_outcomes, run_outcomes, prescribed_run, advance_unbound, frozen_binary_refuted, orbit_in_doubles, orbit_stalls_refuted, after_in_doubles, after_stalls_refuted, ieee_operations, rejected_densities, check_of_numbers_refuted, speed_of_empty_cell, greatest_speed, least_limit, step_is_a_number, nan_ends_the_run, nan_goes_unnoticed, limits_respected_refuted, nan_spreads, nan_takes_all, nan_stays_within, cold_shell_is_lost, run_goes_on, nan_state_rejected, recovered_gas, lorentz_check_is_idle, spoilt_shell_ends_the_run, finished_run_is_clean, returned_program_is_clean, recovered_numbers_refuted, infinite_momentum_refuted, clock_never_arrives, explosion_ends_iff, positive_steps_end_refuted, relativistic_run_ends, relativistic_run_arrives, negative_pressure_is_lost, negative_energy_is_lost.
