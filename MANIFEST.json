{
 "claims": [
  {
   "property": "C01",
   "status": "proved",
   "theorems": [
    "rational_values_canonical",
    "rational_add_exact",
    "rational_sub_exact",
    "rational_mul_exact",
    "rational_div_exact",
    "rational_div_by_zero_throws",
    "rational_make_exact",
    "rational_make_zero_den_throws"
   ],
   "note": "Values built by the public operations are canonical (positive denominator, lowest terms, except zeros that keep a denominator); the four operations are exact unless an int intermediate overflows, and the overflow guards are explicit."
  },
  {
   "property": "C02",
   "status": "proved",
   "theorems": [
    "rational_compare_correct",
    "rational_eq_spec",
    "rational_ne_is_not_eq",
    "rational_eq_by_value_refuted"
   ],
   "note": "Order comparisons proved; equality is proved to be value equality except for zeros with different denominators, with a refutation witness (finding)."
  },
  {
   "property": "C03",
   "status": "proved",
   "theorems": [
    "step_counter_exact",
    "step_counter_exact_from",
    "step_counter_overflow_refuted"
   ],
   "note": "Holds up to 536870911 steps; beyond that the int product overflows (proved sharp)."
  },
  {
   "property": "C04",
   "status": "proved",
   "theorems": [
    "tree_children_parent",
    "tree_moves_in_range",
    "tree_next_then_prev",
    "tree_prev_then_next",
    "tree_valid_decides",
    "tree_index_equality"
   ],
   "note": ""
  },
  {
   "property": "C05",
   "status": "proved",
   "theorems": [
    "tree_leaves_found"
   ],
   "note": ""
  },
  {
   "property": "C06",
   "status": "proved",
   "theorems": [
    "tree_leaves_tile",
    "tree_address_is_node_or_below_leaf"
   ],
   "note": ""
  },
  {
   "property": "C07",
   "status": "proved",
   "theorems": [
    "tree_membership_agrees",
    "tree_out_of_range_rejected",
    "tree_contains_root_refuted"
   ],
   "note": "contains() has undefined behaviour exactly at addresses naming a branch (finding); the agreement is proved for every other address."
  },
  {
   "property": "C08",
   "status": "proved",
   "theorems": [
    "tree_insert_spec",
    "tree_insert_at_branch_throws",
    "tree_out_of_range_rejected"
   ],
   "note": ""
  },
  {
   "property": "C09",
   "status": "proved",
   "theorems": [
    "tree_rebuilt_in_any_order",
    "tree_file_roundtrip"
   ],
   "note": "The file version holds for rank 2, the only rank read_tree supports (finding)."
  },
  {
   "property": "C10",
   "status": "proved",
   "theorems": [
    "tree_name_roundtrip",
    "tree_name_injective",
    "tree_name_wrong_rank_rejected",
    "tree_name_level_limit",
    "tree_name_fixed_width"
   ],
   "note": "Guard: level at most 30 (shift of int is undefined beyond)."
  },
  {
   "property": "C100",
   "status": "proved",
   "theorems": [
    "faces_in_doubles",
    "faces_positive",
    "faces_of_in_doubles",
    "faces_of_positive",
    "face_empty_refuted",
    "means_in_doubles",
    "four_means_in_doubles",
    "grid_in_doubles",
    "grid_cells",
    "block_grid_ends",
    "grid_end_refuted"
   ],
   "note": "False of the code in two places: with the limiter parameter 2, the end of the documented range, three positive densities can give a face density of exactly zero (face_empty_refuted; proved for parameters up to 2 - 2^-48), and the polar grid of the cloud program can end beyond M_PI, e.g. with 99 zones (grid_end_refuted; within a few units in the last place by grid_in_doubles). For the binary program the slopes are assumed zero or at least 2^-500 and the spacing between 2^-400 and 2^400. The signs of zeros and overflow are not modelled."
  },
  {
   "property": "C101",
   "status": "proved",
   "theorems": [
    "removes_exactly_the_tree",
    "remove_not_a_directory",
    "remove_through_link_refuted",
    "remove_order_refuted",
    "remove_file_correct",
    "listdir_correct",
    "isfile_isdir_correct",
    "isfile_isdir_refuted",
    "stat_not_a_link",
    "require_dir_correct",
    "require_dir_blocked_refuted"
   ],
   "note": "False of the code in four places: remove_recurse follows links, so it empties a directory outside the tree and then fails (remove_through_link_refuted), and its success can depend on the listing order (remove_order_refuted; proved for trees without links); isfile and isdir test single bits of the file type, so a socket is both and a block device is a directory (isfile_isdir_refuted; proved for all other types); require_dir ignores that a file is in the way (require_dir_blocked_refuted). The system calls are part of the model (trusted); permissions are not modelled and opendir takes a snapshot of the directory."
  },
  {
   "property": "C102",
   "status": "proved",
   "theorems": [
    "schedule_in_doubles",
    "due_in_doubles",
    "run_in_doubles",
    "binary_run_in_doubles",
    "clock_stalls_refuted"
   ],
   "note": "False of the code for very short time steps: a step below half a unit in the last place of the time does not advance it and the run never ends (clock_stalls_refuted); proved for steps of at least 2^-48 of the final time and 2^-1000, which is an assumption on the physics. The times given to the schedule may be any real numbers. binary_run_in_doubles is for an arbitrary positive value of 2 * M_PI."
  },
  {
   "property": "C103",
   "status": "proved",
   "theorems": [
    "messages_arrive",
    "receives_complete",
    "any_source_refuted",
    "long_requests",
    "short_requests_refuted",
    "early_irecv_refuted",
    "typed_requests"
   ],
   "note": "False of the code in three places: recv with any_source and messages of different lengths (any_source_refuted; proved when sources are named or lengths agree), isend and irecv of messages short enough to be kept in the string object, such as any int or double (short_requests_refuted with the exact outcome at every time of transfer; proved for longer messages), irecv before the message has arrived (early_irecv_refuted). The matching rules of MPI are part of the model (trusted); sends are buffered, so deadlock is not seen."
  },
  {
   "property": "C104",
   "status": "proved",
   "theorems": [
    "inner_face_closed",
    "shells_step",
    "shells_budget",
    "shells_conserved",
    "cloud_step"
   ],
   "note": "The fluxes between cells are any doubles, so the theorems hold for the fluxes the code computes. shells_budget and shells_conserved assume that no shell is negative (C83 for the mass). inner_face_closed assumes a positive signal speed (otherwise the code divides by zero). The average of the second-order scheme of the cloud program is not included."
  },
  {
   "property": "C105",
   "status": "proved",
   "theorems": [
    "binary_run_outputs",
    "output_time",
    "last_step_fails",
    "loop_outputs",
    "boilerplate_run_outputs",
    "simple_run_outputs",
    "samples_kept_refuted",
    "failure_reported_refuted",
    "app_main_runs"
   ],
   "note": "The outputs due at the final time are written by one more step after the loop (loop_outputs: the loop alone leaves them out). False of the code in two places: samples taken after the last checkpoint are in no file (samples_kept_refuted), and an unknown sub-program is reported as success (failure_reported_refuted). If the step after the loop throws, the program fails although the run is complete (last_step_fails). The other outputs of the explosion and cloud programs are modelled by name and number only."
  },
  {
   "property": "C106",
   "status": "proved",
   "theorems": [
    "handles_owned",
    "communicators_requests_buffers_owned",
    "file_created_again",
    "assigned_owner_leaks",
    "files_closed_refuted",
    "close_by_hand_refuted",
    "self_assignment_refuted",
    "empty_assignment_refuted"
   ],
   "note": "Proved without restriction for Communicator, Request and buffer_t. False of the code for the HDF5 classes in four ways: assigning to a File, Group or Dataset that is open leaves the old id open for ever (assigned_owner_leaks, files_closed_refuted); close() on a PropertyList, Datatype or Dataspace is followed by a second close or std::terminate in the destructor (close_by_hand_refuted); self-assignment of a Datatype or Dataspace (self_assignment_refuted); assigning an empty Datatype (empty_assignment_refuted). handles_owned is for all other programs. The library is modelled by the set of its open identifiers; its other failures are left out."
  },
  {
   "property": "C107",
   "status": "proved",
   "theorems": [
    "selection_correct",
    "write_changes_selection",
    "disjoint_writes_commute",
    "read_all_correct",
    "partial_read_refuted",
    "number_read_back",
    "set_extent_keeps",
    "chunked_required_twice_refuted",
    "chunk_size_ignored_refuted",
    "rows_written",
    "series_of_a_run",
    "skipped_rows_are_filled",
    "sedov_run_series"
   ],
   "note": "False of the code in three places: a vector or array cannot be read from a selection that leaves anything out, because room is made for the whole data set and the sizes then differ (partial_read_refuted; single numbers can, number_read_back); a chunked data set asked for again with the same arguments is refused, because its property list is compared with the default one (chunked_required_twice_refuted), and a chunk size asked for is ignored for a data set that is there (chunk_size_ignored_refuted). The HDF5 calls are modelled by their documented meaning (trusted). sedov_run_series is for runs with exact times and any row of values per output number."
  },
  {
   "property": "C108",
   "status": "proved",
   "theorems": [
    "killed_and_resumed",
    "resumed_anywhere_refuted",
    "simple_resumes_refuted"
   ],
   "note": "Proved for the binary program resumed from the last checkpoint it completed. False of the code in two places, refuted: resumed from an older checkpoint first and then from a newer one, a file torn by the second kill stays torn, since files are emptied and rewritten in place; and the boilerplate and cloud programs reuse the number of the checkpoint they are resumed from, so its file is overwritten with a later state. A kill stops the process between or inside the writing of output files; files are whole or torn; the prescribed configuration of the resumed run may differ in what does not affect the run."
  },
  {
   "property": "C109",
   "status": "proved",
   "theorems": [
    "diagnostic_fields_exact",
    "no_cell_at_origin"
   ],
   "note": "Real arithmetic. A cell centred on the origin, which exists only on an unrefined mesh with an odd block size, is excluded by the guard centre_clear (the quotient is 0/0 there); no_cell_at_origin shows that every other mesh satisfies it. Density must be positive in every cell: with density 0 the velocities are 0/0."
  },
  {
   "property": "C11",
   "status": "proved",
   "theorems": [
    "tree_map_laws",
    "tree_binary_op_same_shape",
    "tree_binary_op_other_shape_throws",
    "tree_any_all_are_over_leaves",
    "tree_pair_indexes_total",
    "tree_front_is_first_leaf"
   ],
   "note": ""
  },
  {
   "property": "C110",
   "status": "proved",
   "theorems": [
    "binary_checkpoint_through_file",
    "binary_checkpoint_complete",
    "diagnostics_through_file",
    "cloud_checkpoint_through_file",
    "boilerplate_checkpoint_through_file",
    "sedov_checkpoint_refuted",
    "binary_file_agrees"
   ],
   "note": "On the model of the HDF5 wrapper (C56); parameter and task names that the file can hold. Marks of due tasks are not in the file and empty strings come back as one null character (C56). The configuration in a diagnostics file is not read back by the reader. False of the code for the sedov program: it writes the configuration under another name than it reads, so no checkpoint of it can be restarted (sedov_checkpoint_refuted). binary_file_agrees ties the file to the one used in C20 and C108."
  },
  {
   "property": "C111",
   "status": "proved",
   "theorems": [
    "async_map_throws",
    "pool_map_answers",
    "pool_map_throws_refuted",
    "pool_without_failures",
    "failed_task_never_answers",
    "failed_task_ends_the_process"
   ],
   "note": "True of maps on one thread and with std::async. False of maps on a thread pool: pool_map_throws_refuted shows that the caller then never gets an answer and that every complete order of events ends the process. Proved of the pool: what the caller gets is never an exception and always what the map on one thread gives; while no task throws the pool is that of C15 to C17. Tasks return or throw (well_behaved)."
  },
  {
   "property": "C112",
   "status": "proved",
   "theorems": [
    "cells_keep_mass",
    "program_grid_roomy",
    "program_keeps_mass",
    "plm_empties_cell_refuted"
   ],
   "note": "Real arithmetic. True with reconstruct_method=1 on every grid that is roomy (an explicit inequality; program_grid_roomy shows it for the program's grid with nr >= 128 and cfl <= 0.4), as long as the states recovered by the Newton iteration overstate the mass of no cell by more than the factor k (carries). False of the code with the default reconstruct_method=2, refuted for every such configuration and grid: the limited slopes of gamma-beta give face states whose Lorentz factor is not bounded by that of the cell."
  },
  {
   "property": "C113",
   "status": "proved",
   "theorems": [
    "time_series_accounts"
   ],
   "note": "Real arithmetic. For a run whose sound speed depends on the radius alone and, in the linear momentum scheme, without a density floor (the guards of C72's budget); positions_fit under bound orbits. The positions after the final step are a hypothesis that full_state_terminates discharges for bound orbits with eccentricity at most 0.9."
  },
  {
   "property": "C114",
   "status": "proved",
   "theorems": [
    "evaluate_drop_in",
    "cloud_stage_on_threads",
    "cloud_run_on_threads",
    "cloud_few_zones_race_refuted",
    "cloud_failure_ends_process",
    "emptied_shell_ends_process",
    "failures_reach_caller_refuted"
   ],
   "note": "The same solution in every order: proved for at most as many threads as radial zones; with more threads (12 by default) two threads assign the same elements in every evaluation of zones, a data race (cloud_few_zones_race_refuted). The second half is false of the code: an exception on a thread ends the process (failures_reach_caller_refuted, for gas that the default scheme brings about by itself). Sequentially consistent interleavings of whole assignments; real arithmetic inside the elements."
  },
  {
   "property": "C115",
   "status": "proved",
   "theorems": [
    "ring_step",
    "wave_moves_at_unit_speed",
    "ring_run_ends",
    "boilerplate_files"
   ],
   "note": "Exact arithmetic; boilerplate_files for checkpoint intervals no shorter than a step; N + 1 and the iteration count fit in an int. The step itself is NdOpsModel.advection_step (C35)."
  },
  {
   "property": "C116",
   "status": "proved",
   "theorems": [
    "explosion_checkpoints_relativistic",
    "explosion_checkpoints_newtonian",
    "cloud_checkpoints",
    "newtonian_runs_end"
   ],
   "note": "Real arithmetic, sequential evaluation, intervals no shorter than a step, fewer than 2^31 - 3 rounds. The Newtonian account holds while the innermost and the outermost shell hold a gas of positive density and pressure; the relativistic and the cloud account need nothing, as a run that ends has recovered a gas everywhere. Only the Newtonian run is proved to end."
  },
  {
   "property": "C117",
   "status": "proved",
   "theorems": [
    "safe_step_density",
    "safe_step_keeps",
    "safe_step_not_rejected",
    "failed_step_rescued"
   ],
   "note": "Real arithmetic. The guard is `gentle`: dt times the loss rate of every cell is at most 1, buffer rate and initial densities not negative, positive speed of sound at the faces. For second order the guard is asked of both evaluations of the second attempt. A binary that comes apart (InvalidArgument) is the one failure left."
  },
  {
   "property": "C118",
   "status": "proved",
   "theorems": [
    "quarter_cell_keeps_gas",
    "default_courant_refuted"
   ],
   "note": "False of the code: refuted (default_courant_refuted) for the default cfl_number 0.4, plm_theta 1.8 and Mach number 10. True when no signal crosses a quarter of a cell, i.e. for a Courant number up to 1/4 (quarter_cell_keeps_gas), in both modes. For a cell whose stencil lies in blocks of one level, sources left out."
  },
  {
   "property": "C119",
   "status": "proved",
   "theorems": [
    "sandbox_files",
    "sandbox_restart_ignored",
    "sandbox_restarts_refuted"
   ],
   "note": "Exact arithmetic. The last sentence is false of the code: the option restart is accepted and never read (sandbox_restart_ignored, sandbox_restarts_refuted). That the mass is lost at changes of level is C92 (sandbox_conserves_refuted)."
  },
  {
   "property": "C12",
   "status": "proved",
   "theorems": [
    "tree_update_spec",
    "tree_update_below_leaf_throws",
    "tree_refine_spec",
    "tree_refine_all_leaves"
   ],
   "note": ""
  },
  {
   "property": "C120",
   "status": "proved",
   "theorems": [
    "explosion_file",
    "newtonian_fields_rebuild",
    "first_record",
    "first_velocity_refuted",
    "first_output_refuted"
   ],
   "note": "The last sentence is false of the code: at time zero the gas is at rest and the same on both sides, so that shock_radius_interpolated and shock_velocity are 0/0 (first_velocity_refuted, default options), and the diagnostics are undefined when only the innermost shell is hot (first_output_refuted, nr = 3). first_record gives the exact record. Doubles are real numbers, a division by zero is None."
  },
  {
   "property": "C121",
   "status": "proved",
   "theorems": [
    "any_step_density",
    "any_step_keeps",
    "any_step_not_rejected",
    "mild_attempt",
    "mild_step_taken"
   ],
   "note": "Exact arithmetic. Extends C117 (safe mode, a quarter of a cell) and C118 (one cell, no change of level) to the whole mesh in both modes. Next to a finer block the guard cells can give face states below zero, but those fluxes are replaced by the ones of the finer block."
  },
  {
   "property": "C122",
   "status": "proved",
   "theorems": [
    "cloud_file",
    "cloud_file_one_shell",
    "cloud_file_mirrored",
    "cloud_series_refuted"
   ],
   "note": "The last sentence is false of the code: states with opposite polar momentum have the same diagnostics file (cloud_file_mirrored; two such states in cloud_file_example), and write_time_series has an empty body, so that the columns of time_series.h5 have no row after any run (cloud_series_refuted). With one shell there is no file (cloud_file_one_shell). Doubles are real numbers."
  },
  {
   "property": "C123",
   "status": "proved",
   "theorems": [
    "cloud_run_mirrored",
    "cloud_no_rotation",
    "cloud_hemispheres",
    "cloud_checkpoints_alike"
   ],
   "note": "Exact arithmetic. cloud_run_mirrored holds for every start, also for one whose hemispheres differ; no state is assumed to be physical at faces. cloud_checkpoints_alike is for a step below the three output intervals, like cloud_checkpoints (C116)."
  },
  {
   "property": "C124",
   "status": "proved",
   "theorems": [
    "explosion_reach",
    "explosion_unseen",
    "cloud_reach",
    "cloud_jet_unfelt"
   ],
   "note": "Exact arithmetic. Both runs are assumed to get as far as the step in question: a failed recovery anywhere ends a run, so that failure itself is not local."
  },
  {
   "property": "C125",
   "status": "proved",
   "theorems": [
    "first_attempts_are_steps",
    "disk_run_units",
    "disk_time_step_units",
    "disk_totals_units",
    "disk_start_units",
    "disk_mass_is_a_unit"
   ],
   "note": "Exact arithmetic. The runs compared make every step by the first attempt: a heavier disk can unbind the binary in the bookkeeping of what a live binary would do (elements_at throws), and the step is then repeated with a tenth of its length, although the binary is not live. The work done on the bodies and the two would-be elements are not proportional to the disk and are left out."
  },
  {
   "property": "C126",
   "status": "proved",
   "theorems": [
    "rejected_densities",
    "check_of_numbers_refuted",
    "speed_of_empty_cell",
    "greatest_speed",
    "least_limit",
    "step_is_a_number",
    "nan_ends_the_run",
    "nan_goes_unnoticed",
    "limits_respected_refuted"
   ],
   "note": "The last sentence is false of the code: an empty cell that is the first of the first block of a group of four makes the limit of the group NaN, std::min then passes over the group, and the step exceeds the limits of its three sound blocks (limits_respected_refuted); it holds if the limits of all blocks are numbers (least_limit). check_of_numbers_refuted records that the check is not one for numbers. Scheme with conserve_linear_p and without fixed_dt; the update of the gas is any function; NaN payloads are left out."
  },
  {
   "property": "C127",
   "status": "proved",
   "theorems": [
    "nan_spreads",
    "nan_takes_all",
    "nan_stays_within",
    "cold_shell_is_lost",
    "negative_pressure_is_lost",
    "negative_energy_is_lost",
    "run_goes_on"
   ],
   "note": "IEEE 754 binary64 (Flocq), each operation rounded to nearest even, no fused multiply-add. Newtonian equations only. The geometry and the time step are arbitrary doubles, the same in every step, since the vertices do not change. The tasks between the steps (diagnostics, output) are not part of the loop modelled here and could throw."
  },
  {
   "property": "C128",
   "status": "proved",
   "theorems": [
    "nan_state_rejected",
    "recovered_gas",
    "lorentz_check_is_idle",
    "spoilt_shell_ends_the_run",
    "finished_run_is_clean",
    "returned_program_is_clean",
    "recovered_numbers_refuted",
    "infinite_momentum_refuted"
   ],
   "note": "The last sentence is false of the code: a finite state without energy is accepted with NaN pressure and velocities (recovered_numbers_refuted), and so is an infinite momentum (infinite_momentum_refuted); recovered_gas is what holds. IEEE 754 binary64 (Flocq), no fused multiply-add; std::pow(x, 2) is any function that gives NaN for NaN, in the two refutations it is x * x rounded. The part of the step after the recovery is arbitrary; tasks between the steps are left out."
  },
  {
   "property": "C129",
   "status": "proved",
   "theorems": [
    "clock_never_arrives",
    "explosion_ends_iff",
    "relativistic_run_ends",
    "relativistic_run_arrives",
    "positive_steps_end_refuted"
   ],
   "note": "The last sentence is false of the code (positive_steps_end_refuted: time 1, step 2^-54). In the Newtonian loop of NanSedovModel.v no step fails; the relativistic one (NanSrhdModel.v) may also end with an exception. C102 has a sufficient condition in terms of the size of the step, for finite values."
  },
  {
   "property": "C13",
   "status": "proved",
   "theorems": [
    "balance_ends_balanced",
    "balance_keeps_balanced",
    "balance_minimal"
   ],
   "note": "Guard: depth at most 30 (the code shifts an int by the level). Also proved: the result is the coarsest balanced refinement."
  },
  {
   "property": "C14",
   "status": "proved",
   "theorems": [
    "hilbert_injective_refuted",
    "hilbert_defined",
    "hilbert_curve_injective"
   ],
   "note": "The property is false of the code: the level is passed as grid size, so on every level 1..30 whole halves of the domain collide (refuted with a general witness). The inner curve with the right grid size is proved injective."
  },
  {
   "property": "C15",
   "status": "proved",
   "theorems": [
    "pool_fifo_exactly_once",
    "pool_exits_only_when_empty",
    "pool_all_tasks_done_after_stop",
    "pool_runs_all_tasks"
   ],
   "note": "Sequentially consistent interleavings; tasks that throw are outside the model."
  },
  {
   "property": "C16",
   "status": "proved",
   "theorems": [
    "pool_stop_terminates_refuted",
    "pool_stop_terminates"
   ],
   "note": "The property is false of the code (lost wakeup): refuted, with the exact condition under which stopping does terminate proved as well."
  },
  {
   "property": "C17",
   "status": "proved",
   "theorems": [
    "parallel_map_submits",
    "parallel_map_correct",
    "parallel_map_completes"
   ],
   "note": ""
  },
  {
   "property": "C18",
   "status": "proved",
   "theorems": [
    "schedule_last_is_multiple",
    "schedule_never_lags",
    "schedule_due_at_crossings"
   ],
   "note": "Times are exact reals. A check is made at the time of the step's initial state, so the output itself is written one step after the crossing. Uses the standard library's real-number axioms."
  },
  {
   "property": "C19",
   "status": "proved",
   "theorems": [
    "scheduled_tasks_run_in_order",
    "scheduled_tasks_unregistered",
    "scheduled_tasks_effect"
   ],
   "note": "Any state type and any behaviour of the tasks; the effect on the schedule is proved for tasks that mark themselves as completed, as all tasks of the binary subprogram do."
  },
  {
   "property": "C20",
   "status": "proved",
   "theorems": [
    "binary_restart_exact"
   ],
   "note": "For any solution, configuration and time type; the solution and the sample list are assumed to survive HDF5 unchanged, and the new configuration must give the same run (it may differ in keys the run does not depend on)."
  },
  {
   "property": "C21",
   "status": "proved",
   "theorems": [
    "simple_restart_refuted",
    "simple_restart_overwrites",
    "sedov_restart_refuted",
    "other_restarts_open"
   ],
   "note": "The property is false of the code: refuted, and proved in general that the resumed run overwrites checkpoint k and drops the outputs that were due. A sedov restart fails outright because it opens a group that is not written."
  },
  {
   "property": "C22",
   "status": "proved",
   "theorems": [
    "config_after_updates",
    "config_update_accepted",
    "config_get",
    "config_update",
    "config_text_meaning"
   ],
   "note": "Any template and any sequence of updates; std::stod is a parameter. std::stoi ignores trailing characters, so \"12x\" is accepted as 12."
  },
  {
   "property": "C23",
   "status": "proved",
   "theorems": [
    "argv_pairs_cut_at_first",
    "argv_map",
    "argv_order_irrelevant"
   ],
   "note": ""
  },
  {
   "property": "C24",
   "status": "proved",
   "theorems": [
    "path_join_split",
    "path_split_join"
   ],
   "note": "Proved for every nonempty list of slash-free parts, including empty parts."
  },
  {
   "property": "C25",
   "status": "proved",
   "theorems": [
    "path_parent",
    "path_parent_without_slash",
    "path_extension",
    "path_no_dot_no_extension",
    "path_extension_refuted"
   ],
   "note": "The last clause is false of the code: the last dot of the whole path counts, also one in a directory name (refuted with a witness); proved for paths without any dot."
  },
  {
   "property": "C26",
   "status": "proved",
   "theorems": [
    "prime_factors_correct",
    "prime_factors_undefined",
    "prime_factors_every_number_refuted",
    "prime_factors_of_zero_diverges",
    "prime_factors_of_one"
   ],
   "note": "Proved for every int of at least 2 except the primes from 46340^2 on, for which the trial square overflows (exact condition proved; statement as given refuted). Recursion modelled with fuel; any fuel with num < 2^fuel suffices."
  },
  {
   "property": "C27",
   "status": "proved",
   "theorems": [
    "process_grid_uses_every_process"
   ],
   "note": "Under the guard of C26 on the number of processes."
  },
  {
   "property": "C28",
   "status": "proved",
   "theorems": [
    "domain_decomposition_tiles",
    "domain_decomposition_throws",
    "domain_decomposition_zero_blocks_refuted"
   ],
   "note": "Extents fit an int and block count times extent fits size_t. A zero block count is accepted silently (finding)."
  },
  {
   "property": "C29",
   "status": "proved",
   "theorems": [
    "evaluate_on_threads",
    "evaluate_on_threads_terminate",
    "evaluate_on_more_threads_than_rows_races_refuted"
   ],
   "note": "Threads as arbitrary interleavings of their element writes. With more threads than rows in rank two or more two threads always write the same element (finding)."
  },
  {
   "property": "C30",
   "status": "proved",
   "theorems": [
    "row_major_offsets"
   ],
   "note": "Element count fits size_t."
  },
  {
   "property": "C31",
   "status": "proved",
   "theorems": [
    "iteration_visits_each_index_once",
    "iteration_is_a_fold",
    "iteration_zero_extent_refuted"
   ],
   "note": ""
  },
  {
   "property": "C32",
   "status": "proved",
   "theorems": [
    "selection_counts",
    "selection_round_trip",
    "selection_generates",
    "selection_within_is_safe",
    "selection_within_exact_for_unit_jumps",
    "selection_within_complete_refuted"
   ],
   "note": ""
  },
  {
   "property": "C33",
   "status": "proved",
   "theorems": [
    "evaluate_preserves_elements",
    "evaluate_large_array_refuted",
    "evaluate_empty_array_refuted"
   ],
   "note": "Shapes without zero extents and with an element count that fits an int; both guards are shown necessary."
  },
  {
   "property": "C34",
   "status": "proved",
   "theorems": [
    "select_of_concat_gives_the_parts",
    "array_is_concat_of_its_parts",
    "concat_throws_exactly",
    "replace_inside_and_outside",
    "replace_mismatched_shape_throws",
    "select_first_and_final",
    "extend_periodic_reads_modulo"
   ],
   "note": ""
  },
  {
   "property": "C35",
   "status": "proved",
   "theorems": [
    "differences_telescope",
    "difference_of_empty_axis_refuted",
    "advection_conserves_total"
   ],
   "note": "Differences in any abelian group; the advection step over the reals."
  },
  {
   "property": "C36",
   "status": "proved",
   "theorems": [
    "partition_is_exact_and_even"
   ],
   "note": ""
  },
  {
   "property": "C37",
   "status": "proved",
   "theorems": [
    "volume_is_the_product",
    "volume_in_general",
    "volume_of_large_shape_refuted"
   ],
   "note": ""
  },
  {
   "property": "C38",
   "status": "proved",
   "theorems": [
    "linspace_evenly_spaced",
    "arange_elements",
    "arange_unit_step",
    "arange_all_steps_refuted"
   ],
   "note": "linspace over the reals. The arange part holds exactly when final mod step <= start mod step (proved as an equivalence), so it is refuted in general."
  },
  {
   "property": "C39",
   "status": "proved",
   "theorems": [
    "coarsen_after_prolong_cells",
    "coarsen_after_prolong_verts",
    "coarsen_after_refine_cells",
    "restrict_extrinsic_conserves",
    "restrict_cells_conserves_mean",
    "restrict_extrinsic_odd_extent_refuted"
   ],
   "note": "Any rank D (1, 2, 3 are instances). Numbers are exact: addition/halving are abstract operations satisfying the listed laws. For odd extents the last cell is dropped (finding)."
  },
  {
   "property": "C40",
   "status": "proved",
   "theorems": [
    "combine_after_refine_cells",
    "combine_after_refine_verts",
    "combine_verts_three_axes_refuted",
    "bisect_cells_and_join",
    "bisect_verts_and_join"
   ],
   "note": "Cells for any rank; vertices for rank <= 2, because combine_verts throws in rank 3 (finding)."
  },
  {
   "property": "C41",
   "status": "proved",
   "theorems": [
    "plm_is_minmod",
    "plm_zero_at_extrema",
    "plm_sign",
    "plm_bounded",
    "plm_face_values",
    "plm_exact_on_linear_data",
    "plm_negation",
    "plm_reversal",
    "plm_shift",
    "plm_componentwise"
   ],
   "note": "Exact reals; the sign bits of zeros are arbitrary parameters and shown irrelevant."
  },
  {
   "property": "C42",
   "status": "proved",
   "theorems": [
    "cubic_roots_exact",
    "quartic_roots_exact",
    "quartic_roots_multiplicity",
    "parabola_vertex_exact"
   ],
   "note": "Exact real arithmetic; operations outside their IEEE domain are a distinct failing outcome, proved never to occur for a nonzero leading coefficient."
  },
  {
   "property": "C43",
   "status": "proved",
   "theorems": [
    "linked_lists_refine_pure_lists",
    "linked_lists_do_not_leak",
    "pure_equality_is_equality"
   ],
   "note": "Every client program over list variables; temporaries, copy assignment (including x = x.tail()) and the iterative destructor are modelled with reference counts. Stack depth, allocation failure and threads are not modelled."
  },
  {
   "property": "C44",
   "status": "proved",
   "theorems": [
    "product_elements",
    "product_associative",
    "product_distributes_left",
    "product_distributes_right",
    "identity_is_unit",
    "sums_form_a_monoid",
    "diagonal_products",
    "vector_products",
    "matrix_equality"
   ],
   "note": "Every size and every (semi)ring of elements: the ring laws are premises of the theorems, so exact arithmetic."
  },
  {
   "property": "C45",
   "status": "proved",
   "theorems": [
    "at_in_range_or_throws",
    "update_changes_one",
    "set_changes_one",
    "set_out_of_range_is_silent",
    "reverse_is_rev",
    "reverse_involutive",
    "concat_is_app",
    "append_prepend_laws",
    "head_tail_laws",
    "init_last_laws",
    "map_elementwise",
    "apply_to_elementwise",
    "binary_op_elementwise",
    "sum_is_fold",
    "all_any_are_folds",
    "min_max_are_bounds",
    "transpose_involutive"
   ],
   "note": "Every length and element type. Setting or updating out of range is a silent no-op (finding)."
  },
  {
   "property": "C46",
   "status": "proved",
   "theorems": [
    "pow_units_right_iff",
    "pow_accepts_integral_results",
    "integer_powers_of_negative_units_rejected",
    "pow_units_refuted",
    "product_units",
    "ratio_undoes_product"
   ],
   "note": "False of the code for negative exponents, because D is unsigned: refuted; proved exactly when it holds. The programs only use nonnegative exponents."
  },
  {
   "property": "C47",
   "status": "proved",
   "theorems": [
    "unit_vector_normalised_refuted",
    "unit_vector_normalised_iff",
    "axis_vectors_orthonormal",
    "axis_projection",
    "axis_out_of_range",
    "default_direction"
   ],
   "note": "The property is false of the code: the constructor normalises its parameters, not the members (refuted). The directions the programs use (axes, default) are proved orthonormal."
  },
  {
   "property": "C48",
   "status": "proved",
   "theorems": [
    "euler_recover_after_conserve",
    "euler_conserve_after_recover",
    "euler_recover_pressure",
    "iso_recover_after_conserve",
    "iso_conserve_after_recover",
    "iso_negative_density_throws",
    "angmom_recover_after_conserve",
    "angmom_conserve_after_recover",
    "linear_and_angular_forms_agree",
    "linear_to_angular_and_back"
   ],
   "note": "Exact real arithmetic."
  },
  {
   "property": "C49",
   "status": "proved",
   "theorems": [
    "euler_hlle_consistent",
    "euler_hlle_upwind",
    "euler_hlle_direction_reversal",
    "euler_hlle_mirror",
    "iso_hlle_consistent",
    "iso_hlle_upwind",
    "iso_hlle_direction_reversal",
    "iso_hlle_mirror",
    "srhd_hlle_consistent",
    "srhd_hlle_upwind",
    "srhd_hlle_direction_reversal",
    "srhd_hlle_mirror"
   ],
   "note": "Exact real arithmetic; physical states, so the formula's denominator is proved positive."
  },
  {
   "property": "C50",
   "status": "proved",
   "theorems": [
    "left_right_inverse",
    "jacobian_times_right",
    "left_times_jacobian",
    "jacobian_decomposition",
    "jacobian_is_derivative"
   ],
   "note": "Exact real arithmetic. Also proved: the matrix is the derivative of the flux."
  },
  {
   "property": "C51",
   "status": "proved",
   "theorems": [
    "signal_speeds_below_light",
    "flow_speed_below_light",
    "sound_speed_below_light",
    "signal_speeds_add_relativistically",
    "sound_speed_gamma_bound_sharp"
   ],
   "note": "Exact real arithmetic, unit direction."
  },
  {
   "property": "C52",
   "status": "proved",
   "theorems": [
    "orbit_conserved",
    "exact_orbit_gravitates",
    "state_at_accurate",
    "full_state_conserved"
   ],
   "note": "Exact real arithmetic."
  },
  {
   "property": "C53",
   "status": "proved",
   "theorems": [
    "flux_correction_matches",
    "flux_correction_elsewhere",
    "flux_correction_conserves",
    "flux_correction_conserves_periodic",
    "flux_correction_refuted"
   ],
   "note": "Every balanced quadtree of at most 30 levels, every block size (even or odd), every flux field whose same-size neighbours agree. Proved for contains() as the compiled code answers it; by the language rules contains() is undefined exactly where a correction is due (flux_correction_refuted). One conserved component, real arithmetic."
  },
  {
   "property": "C54",
   "status": "proved",
   "theorems": [
    "cell_block_means",
    "cell_block_uniform",
    "blocks_have_field",
    "extend_means",
    "vertex_block_regular",
    "cell_block_too_deep",
    "cell_block_branch_refuted",
    "cell_block_root_refuted"
   ],
   "note": "Cells: any rank, any block size, every leaf, branch (except the root) and child of a leaf, up to level 31; vertices: rank 2. False of the code elsewhere: two levels below a leaf the search never returns (cell_block_too_deep), the root branch wraps its level (cell_block_root_refuted), and by the language rules contains() is undefined at every branch (cell_block_branch_refuted; the positive theorems take the compiled answer). Real arithmetic."
  },
  {
   "property": "C55",
   "status": "proved",
   "theorems": [
    "scatterv_delivers",
    "displacements_are_totals",
    "all_gatherv_collects",
    "gather_after_scatter",
    "scatterv_wrong_count",
    "all_gatherv_overflow_refuted",
    "scatterv_empty_refuted",
    "all_gatherv_empty_refuted",
    "all_to_all_transposes",
    "all_to_all_wrong_count",
    "typed_message",
    "typed_message_wrong_size"
   ],
   "note": "Any number of ranks, any piece lengths (also zero), any trivially copyable type, as long as the total is at most 2^31-1 bytes. Beyond that the running totals overflow (all_gatherv_overflow_refuted); by the letter of the language an empty piece is undefined behaviour because of &v[0] (\u2026_empty_refuted). MPI's collective calls are modelled by their documented effect."
  },
  {
   "property": "C56",
   "status": "proved",
   "theorems": [
    "string_round_trip",
    "empty_string_refuted",
    "string_rewrite",
    "number_round_trip",
    "vector_round_trip",
    "list_round_trip",
    "array_round_trip",
    "read_other_type_refused",
    "config_through_file",
    "config_through_file_same",
    "config_name_1024_refuted",
    "schedule_through_file"
   ],
   "note": "False of the code for the empty string, which comes back as one null character (empty_string_refuted); proved for every other string, and for numbers, vectors, lists, arrays, whole configurations and schedules. The HDF5 library is modelled by the documented effect of the calls."
  },
  {
   "property": "C57",
   "status": "proved",
   "theorems": [
    "run_config_precedence",
    "config_file_roundtrip"
   ],
   "note": "What a group holds is a list of readable or unreadable values; the reading of single values is not modelled."
  },
  {
   "property": "C58",
   "status": "proved",
   "theorems": [
    "numbered_files_distinct",
    "numbered_files_sort",
    "numbered_files_sort_refuted"
   ],
   "note": "The ordering part is false from number 10000 on (refuted); proved below."
  },
  {
   "property": "C59",
   "status": "proved",
   "theorems": [
    "require_dir_creates_ancestors",
    "require_dir_absolute_refuted"
   ],
   "note": "For absolute paths the property is false of the code: the directories are made below the current directory."
  },
  {
   "property": "C60",
   "status": "proved",
   "theorems": [
    "roe_average_symmetric",
    "roe_average_of_equal_states",
    "roe_average_between",
    "roe_linearisation_defect",
    "roe_linearisation_equal_velocities",
    "roe_linearisation_refuted"
   ],
   "note": "The documented identity is false for the energy row (refuted); the exact defect is proved for all states, and it vanishes when the axis velocities agree, as in the unit test."
  },
  {
   "property": "C61",
   "status": "proved",
   "theorems": [
    "euler_hlle_update_physical",
    "iso_hlle_update_physical",
    "srhd_hlle_update_admissible"
   ],
   "note": "First-order update of one cell along one direction; exact real arithmetic."
  },
  {
   "property": "C62",
   "status": "proved",
   "theorems": [
    "hllc_never_throws",
    "hllc_wave_fan",
    "hllc_exact_contact",
    "hllc_consistent",
    "hllc_direction_reversal",
    "hllc_mirror",
    "hllc_mirror_refuted",
    "hllc_ordered"
   ],
   "note": "False of the code without a guard: for head-on streams faster than about 1.6 times the sound speed each the estimated outer waves cross and mirror symmetry fails (refuted with a witness). Proved under the guard that the three waves are ordered, and the guard is proved to hold whenever the sound speeds agree and the approach speed is at most twice the sound speed. Exact real arithmetic."
  },
  {
   "property": "C63",
   "status": "proved",
   "theorems": [
    "true_pressure_is_root",
    "root_unique",
    "recover_accurate",
    "recover_static_exact",
    "recover_sound",
    "recover_lorentz_cap",
    "recover_dilute_refuted"
   ],
   "note": "False of the code without a guard: the tolerance 1e-10 is absolute, so a gas with density and pressure of order 1e-12 comes back with a pressure 31 per cent too low (refuted with a witness), and Lorentz factors above 1e5 are never recovered. Proved for enthalpy density at least 4e-10/(2-g), Lorentz factor at most 1e5, 1 < g < 2. That the loop finishes within 50 steps is not claimed for moving gases (it throws otherwise). Exact real arithmetic."
  },
  {
   "property": "C64",
   "status": "proved",
   "theorems": [
    "euler_uniform_flow_steady",
    "srhd_uniform_flow_steady",
    "euler_source_unique",
    "radial_sources_agree",
    "radial_sources_momentum",
    "radial_source_refuted",
    "angmom_uniform_flow_steady",
    "angmom_flux_of_state",
    "max_wavespeed_exact",
    "max_wavespeed_bounds",
    "max_wavespeed_slanted",
    "max_wavespeed_slanted_refuted",
    "iso_roe_linearises",
    "iso_jacobian_is_derivative"
   ],
   "note": "The one-dimensional spherical source terms leave out the centrifugal term of azimuthal motion (refuted with a witness; proved right for radial motion). The maximum wavespeed bounds signals across axis-aligned faces, which are the only ones used; for slanted faces it is refuted and a factor sqrt 2 proved. Exact real arithmetic."
  },
  {
   "property": "C65",
   "status": "proved",
   "theorems": [
    "elements_describe_state",
    "elements_unbound_throws",
    "elements_roundtrip",
    "clockwise_refuted"
   ],
   "note": "Proved for counter-clockwise binaries. False of the code for clockwise ones: they are accepted but no elements describe them (clockwise_refuted)."
  },
  {
   "property": "C66",
   "status": "proved",
   "theorems": [
    "state_at_terminates",
    "state_at_periodic",
    "full_state_periapsis",
    "full_state_terminates",
    "full_state_periodic",
    "wrap_sound",
    "wrap_terminates",
    "clamp_range"
   ],
   "note": "Termination for eccentricities up to 9/10 in exact arithmetic; for larger ones the first Newton step can leave the interval on which the iteration is known to converge."
  },
  {
   "property": "C67",
   "status": "proved",
   "theorems": [
    "nearest_minimal",
    "diff_describes",
    "tau_whole_periods",
    "delta_a_is_derivative",
    "mean_anomaly_value",
    "nearest_far_refuted",
    "delta_a_boost_refuted",
    "mean_anomaly_refuted"
   ],
   "note": "False of the code in three ways: mean_anomaly ignores tau, delta_a_over_a takes the energy in the lab frame, differences above 1.5 periods are not fully reduced; the true versions are proved."
  },
  {
   "property": "C68",
   "status": "proved",
   "theorems": [
    "mesh_is_regular",
    "mesh_cells",
    "mesh_refined_where_asked",
    "refinement_radius_antitone",
    "mesh_refined_unasked_refuted"
   ],
   "note": "Exact real arithmetic; block sizes up to 2^31-2 (array volumes pass through int), square blocks. The criterion is asked about the number of the pass, not the level of the block, so with a criterion that is easier to meet at finer levels (a negative focus_index) blocks are refined that do not meet it (mesh_refined_unasked_refuted)."
  },
  {
   "property": "C69",
   "status": "proved",
   "theorems": [
    "step_conserves",
    "step_conserves_alike",
    "angular_momentum_step"
   ],
   "note": "For any flux and gradient function. Exact real arithmetic; one component of the conserved tuple at a time; contains() as compiled (C53). Primitive recovery and the source terms enter as arbitrary cell data; the flux tuples of mass and momentum enter as an arbitrary function, to_angmom_fluxes is modelled. The edges of the domain are told apart by fluxes that depend on position, in which case the net flux through the edge appears in the balance."
  },
  {
   "property": "C70",
   "status": "proved",
   "theorems": [
    "run_keeps_valid"
   ],
   "note": "Exact real arithmetic (no NaN or infinity: divisions by zero at a zero density or at a cell centred on the origin are given Coq's value). Exceptions inside the tasks of recover_primitive are undefined behaviour in the model (the process terminates). contains() as compiled (C53)."
  },
  {
   "property": "C71",
   "status": "proved",
   "theorems": [
    "angular_momentum_run"
   ],
   "note": "Same modelling as C70. Independent of sound speed, viscosity and limiter. Only the scheme with conserve_linear_p=0; in the other scheme angular momentum is not a conserved variable."
  },
  {
   "property": "C72",
   "status": "proved",
   "theorems": [
    "mass_run",
    "mass_run_floor",
    "mass_run_refuted",
    "disk_mass_exact",
    "disk_angular_momentum_exact"
   ],
   "note": "Same modelling as C70. The guard axisymmetric_cs2=1 is needed: mass_run_refuted gives a run with the default axisymmetric_cs2=0, without sinks, buffer, floor and viscosity, in which the disk loses mass through the periodic edge although nothing is booked (step_conserves of C69 gives the exact balance); mass put in by the density floor is not booked."
  },
  {
   "property": "C73",
   "status": "proved",
   "theorems": [
    "accretion_run",
    "time_run"
   ],
   "note": "Same modelling as C70."
  },
  {
   "property": "C74",
   "status": "proved",
   "theorems": [
    "timestep_bounds_signals",
    "timestep_refuted"
   ],
   "note": "False of the code in the scheme with conserve_linear_p=0: refuted. maximum_timestep walks the addresses of conserved_u, which that scheme leaves empty, and throws bad_variant_access on every refined mesh, so an adaptive step can never be taken there. Proved for conserve_linear_p=1. Signals along slanted directions are faster (max_wavespeed, C45 ff.)."
  },
  {
   "property": "C75",
   "status": "proved",
   "theorems": [
    "free_stream",
    "uniform_density",
    "uniform_density_stays"
   ],
   "note": "free_stream for any primitive type, gradient and flux function. With zero sound speed and zero normal velocity the quotient of the Riemann solver is 0/0 in floating point; the model gives it Coq's value."
  },
  {
   "property": "C76",
   "status": "proved",
   "theorems": [
    "live_binary",
    "binary_mass_run"
   ],
   "note": "one step: booked masses, both ledgers of element changes, total mass, centre of mass and its velocity; runs: total mass against booked mass, and the frozen binary. The exact momentum gained by the binary is the impulse plus the accreted momentum plus (impulse x accreted mass / mass), second order in the step, by the formula proved."
  },
  {
   "property": "C77",
   "status": "proved",
   "theorems": [
    "atmosphere_masses",
    "atmosphere_continuous",
    "with_total_mass_scaled",
    "with_total_mass_from_default",
    "with_total_mass_refuted"
   ],
   "note": "False of the code for with_total_mass: refuted. It is right exactly when the coefficient f0 was 1; otherwise the result holds mass/f0. Everything else proved as stated. Doubles are real numbers."
  },
  {
   "property": "C78",
   "status": "proved",
   "theorems": [
    "envelop_shells_hold_mass",
    "mass_coordinate_found",
    "envelop_velocity"
   ],
   "note": "psi <= 1/2 for the root finder (default 0.25). cloud_mass omits the Lorentz factor that the shells carry; density_at and power_law_cloud call each other without end if envelop_mass < m1; these are outside the guards and recorded as findings. Doubles are real numbers."
  },
  {
   "property": "C79",
   "status": "proved",
   "theorems": [
    "jet_energy",
    "jet_energy_exponent_one",
    "jet_energy_structure_refuted",
    "jet_base_carries_luminosity"
   ],
   "note": "False of the documentation for other exponents: refuted, with the exponent 1 twice the energy is injected. Doubles are real numbers."
  },
  {
   "property": "C80",
   "status": "proved",
   "theorems": [
    "explosion_budget_newtonian",
    "explosion_budget_relativistic"
   ],
   "note": "relativistic: for every run that ends without an exception; Newtonian: while the innermost and the outermost shell have positive density and pressure. Doubles are real numbers."
  },
  {
   "property": "C81",
   "status": "proved",
   "theorems": [
    "still_gas_is_driven_newtonian",
    "still_gas_is_driven_relativistic"
   ],
   "note": "False of the code: refuted. Source and face pressures differ by p w^3 / (3 (r0 + r1)) for a shell of width w, so every shell gains outward momentum in every step; the exact drift is proved, with mass and energy unchanged."
  },
  {
   "property": "C82",
   "status": "proved",
   "theorems": [
    "new_run_grid",
    "step_below_every_width",
    "signals_stay_in_shells",
    "sound_step_refuted",
    "zones_per_decade_refuted",
    "explosion_inner_edge_refuted"
   ],
   "note": "False of the code in three points, refuted: zones per decade are fewer than nr (int(decades nr) zones cover decades + 1/2), the explosion begins at 10^(-1/2) = 0.316, and in the Newtonian system the step ignores the sound speed. Grid, initial condition and the relativistic time step are proved as stated."
  },
  {
   "property": "C83",
   "status": "proved",
   "theorems": [
    "shells_keep_mass_newtonian",
    "shells_keep_mass_relativistic"
   ],
   "note": "Newtonian: while |v| + c <= 1 in code units. Relativistic: while the recovered states carry the mass of their shells (the recovery is accurate, C63, not exact)."
  },
  {
   "property": "C84",
   "status": "proved",
   "theorems": [
    "any_correct",
    "all_correct",
    "min_correct",
    "max_correct",
    "where_correct",
    "empty_reductions"
   ],
   "note": "min, max for real elements. where: up to 2^31-1 elements, beyond that shape volumes are narrowed to int (C01 ff.)."
  },
  {
   "property": "C85",
   "status": "proved",
   "theorems": [
    "drop_found",
    "shock_found",
    "maximum_behind",
    "maximum_pressure_behind",
    "plateau_ahead",
    "plateau_ahead_refuted"
   ],
   "note": "False of the code for the plateau: refuted. If no cell inside the array qualifies, or the starting cell is 0 or 1, the result is 0, which is not ahead. Otherwise proved as stated. Doubles are real numbers; positive densities and pressures are what gives the logarithms meaning."
  },
  {
   "property": "C86",
   "status": "proved",
   "theorems": [
    "time_series_value",
    "shock_velocity_newtonian",
    "shock_velocity_relativistic",
    "time_series_undefined",
    "shock_radius_refuted"
   ],
   "note": "False of the code in two points, refuted: shock_radius is the inner face of the cell behind the drop, one cell too far in; and the record is undefined (read before the array) whenever the pressure falls outward everywhere. All values are proved when the downstream cell is not the innermost one."
  },
  {
   "property": "C87",
   "status": "proved",
   "theorems": [
    "cloud_budget"
   ],
   "note": "For every run that ends without an exception, in terms of the recovered states. Doubles are real numbers."
  },
  {
   "property": "C88",
   "status": "proved",
   "theorems": [
    "cloud_jet_inflow",
    "cloud_jet_power",
    "cloud_jet_run",
    "cloud_jet_energy_refuted"
   ],
   "note": "False of the code for the energy: refuted. The nozzle density is derived from rho u^2 c^3 r^2, the energy that enters is rho u (W - 1); the injected power is below that of the nozzle model at every angle and time, and below u/2 times it for a slow jet. The inflow of mass and energy is proved exactly. The gas inside must be outgoing, faster than its sound speed."
  },
  {
   "property": "C89",
   "status": "proved",
   "theorems": [
    "cloud_grid",
    "cloud_geometry",
    "cloud_step_radial",
    "cloud_step_polar",
    "cloud_zones_refuted"
   ],
   "note": "False of the code for the number of zones: refuted, int(num_decades nr) zones are made, fewer than nr per decade whenever the product is not whole. The polar time step theorem is for nr >= 4 and whole num_decades nr. Doubles are real numbers."
  },
  {
   "property": "C90",
   "status": "proved",
   "theorems": [
    "cloud_starts",
    "cloud_grid",
    "cloud_items_only_scale",
    "cloud_mass_refuted"
   ],
   "note": "False of the code for the cloud: refuted. cloud_mass, cloud_cutoff and density_index2 only enter the unit of mass; the physical initial mass does not depend on them. Existence, positivity and outflow are proved with enough iterations of the root search (mass_coordinate_found)."
  },
  {
   "property": "C91",
   "status": "proved",
   "theorems": [
    "cloud_still_gas_is_driven"
   ],
   "note": "False of the code: refuted. Pressure on the faces and the source term at the cell centre differ; every cell gains outward momentum dt 2 pi p dmu w^3 / (3 (r0 + r1)) and polar momentum of the same order in each step. The exact drift is proved for first-order steps; mass, energy and azimuthal momentum do not change."
  },
  {
   "property": "C92",
   "status": "proved",
   "theorems": [
    "sandbox_no_new_extrema",
    "sandbox_run",
    "sandbox_conserves",
    "sandbox_conserves_refuted",
    "sandbox_zones"
   ],
   "note": "False of the code for the total and the zones: refuted. Where blocks of two sizes meet there is no flux correction, and one step can lose a sixth of the density; on meshes of one block size the total is kept. The message counts the (N+1)^2 vertices of a block. The maximum principle, the number of steps and the step size are proved for every mesh the refinement builds. Doubles are real numbers."
  },
  {
   "property": "C93",
   "status": "proved",
   "theorems": [
    "disk_is_a_disk",
    "disk_numbers",
    "disk_numbers_square",
    "disk_numbers_refuted",
    "disk_balance",
    "disk_balance_refuted"
   ],
   "note": "False of the code for the numbers and the balance: refuted. The squared rotation speed is negative at large radii for small Mach numbers (exact condition in disk_numbers, a condition for the whole square in disk_numbers_square), and the origin is 0/0. Balance is exact without softening and with axisymmetric_cs2; with softening and the default sound speed the gas at disk_radius is too slow. Doubles are real numbers."
  },
  {
   "property": "C94",
   "status": "proved",
   "theorems": [
    "binary_starts",
    "binary_first_step",
    "binary_method_refused",
    "binary_starts_refuted",
    "buffer_rates",
    "buffer_rates_refuted",
    "buffer_idle_at_start",
    "density_floor_refuted",
    "binary_run"
   ],
   "note": "False of the code for an odd number of cells in an unrefined mesh (the middle cell is at the origin and not a number), for the largest buffer rate (up to twice the option at the corners) and for the density floor (relative to disk_mass): refuted. The rest is proved for all usable options; conservation of mass over a run is for axisymmetric_cs2 and no density floor. Doubles are real numbers."
  },
  {
   "property": "C95",
   "status": "proved",
   "theorems": [
    "cloud_diagnostics",
    "cloud_diagnostic_totals",
    "cloud_shock_places",
    "cloud_energy_flow_refuted",
    "cloud_diagnostics_one_shell",
    "cloud_power_max_refuted",
    "cloud_upstream_refuted"
   ],
   "note": "False of the code for the upstream radius (the innermost shell whenever the shock is in the first two shells or no plateau is found), for the flow power (mean area of both faces, against the inner area in radial_energy_flow) and for the largest power (the scan stops at the first local maximum): refuted with exact values. With one shell an element of an empty array is read (cloud_diagnostics_one_shell). Doubles are reals; the fifteen arrays over the zones are one list of records."
  },
  {
   "property": "C96",
   "status": "proved",
   "theorems": [
    "reshape_keeps_the_sequence",
    "reshape_throws",
    "reshape_large_refuted",
    "shift_left",
    "shift_right_refuted",
    "shift_throws",
    "freeze_one_axis",
    "freeze_throws",
    "freeze_several_axes",
    "freeze_order_refuted",
    "freeze_twice_refuted",
    "collect_applies_to_rows",
    "collect_throws",
    "sums_along_an_axis",
    "read_where",
    "unzip_zip",
    "zip_throws",
    "bounds_check_correct"
   ],
   "note": "False of the code in three places, each refuted with the rest proved: shift_by with positive delta reads before the first element (shift_right_refuted: undefined for the first delta elements; proved for delta <= 0); axes frozen in an order other than increasing get each other's values (freeze_order_refuted); reshape compares the element counts as int, so an empty array reshapes to 65536 x 65536 (reshape_large_refuted; proved for counts that fit an int). zip and unzip are modelled for two arrays."
  },
  {
   "property": "C97",
   "status": "proved",
   "theorems": [
    "hyperslab_is_the_pattern",
    "writing_to_a_pattern",
    "cell_centers_tile_the_domain",
    "writing_all_blocks_fills_the_file",
    "partdom_file",
    "partdom_throws",
    "partdom_one_block_per_process",
    "partdom_enough_cells_refuted"
   ],
   "note": "False of the code in the last sentence: whenever the proposed grid has more blocks than cells along one axis it throws, e.g. 64 cells for 7 processes (partdom_enough_cells_refuted; exact condition in partdom_throws). What H5Sselect_hyperslab and H5Dwrite do is part of the model (trusted). The writing theorems assume that N^3 fits an int."
  },
  {
   "property": "C98",
   "status": "proved",
   "theorems": [
    "advance_outcomes",
    "advance_succeeds",
    "step_outcomes",
    "run_outcomes",
    "prescribed_run",
    "advance_unbound",
    "frozen_binary_refuted"
   ],
   "note": "False of the code in the last sentence: the changes of the orbital elements are computed and checked in every step, so gas that would tear the bodies apart stops the run although the binary is not live (frozen_binary_refuted; advance_unbound). Same modelling as C69/C70: exact reals, a division by zero has the value 0 of the standard library, so the not-a-number that the code may compute then is not seen. The loop of full_state_at is bounded by the fuel: run_outcomes says where it could run out, prescribed_run excludes it."
  },
  {
   "property": "C99",
   "status": "proved",
   "theorems": [
    "orbit_in_doubles",
    "orbit_stalls_refuted",
    "after_in_doubles",
    "after_stalls_refuted",
    "ieee_operations"
   ],
   "note": "False of the code for late times: the mean anomaly omega * t is not reduced to one orbit, so from 2^20 on the rounding of the equation is coarser than the tolerance 1e-10 and the loop goes on for ever at some time in every three orbits (orbit_stalls_refuted, for all eccentricities from 1/1000 to 1/4 and mean anomalies up to 2^39); proved with an explicit number of rounds for mean anomalies up to 2^16 - 3 (orbit_in_doubles). A time of -2^57 never reaches the periapse (after_stalls_refuted). Double arithmetic: reals of the format with rounding to nearest even; ieee_operations ties it to the formalisation of IEEE 754 in Flocq; no fused multiply-add, std::sin and std::cos are assumed accurate to 2^-50."
  }
 ]
}