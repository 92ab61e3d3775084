{
 "claims": [
  {
   "property": "C01",
   "status": "proved",
   "theorems": [
    "C01_constant_time_shift"
   ],
   "note": "all histories of loader calls, IEEE double times"
  },
  {
   "property": "C02",
   "status": "proved",
   "theorems": [
    "C02_acceptance_rule"
   ],
   "note": "exact rule, including the shared previous-time static"
  },
  {
   "property": "C03",
   "status": "proved",
   "theorems": [
    "C03_sorted_if_pushed_in_order",
    "C03_sorted_refuted"
   ],
   "note": "false as stated: refuted by a late message, proved when the pushed times never go back"
  },
  {
   "property": "C04",
   "status": "proved",
   "theorems": [
    "C04_fifo_conservation",
    "C04_histories_run"
   ],
   "note": "all interleavings of pushes and PopOneMessage; companion theorem: such histories always run"
  },
  {
   "property": "C05",
   "status": "proved",
   "theorems": [
    "C05_pop_one_decision",
    "C05_pop_one_order"
   ],
   "note": "decision rule for all buffers, order for sorted buffers"
  },
  {
   "property": "C06",
   "status": "proved",
   "theorems": [
    "C06_delivery_order_refuted",
    "C06_delivery_order_bound"
   ],
   "note": "false as stated: refuted; the only exceptions are characterised"
  },
  {
   "property": "C07",
   "status": "proved",
   "theorems": [
    "C07_live_storage_refuted",
    "C07_stale_read_iff"
   ],
   "note": "false as stated: refuted; exact condition for the dangling read proved"
  },
  {
   "property": "C08",
   "status": "proved",
   "theorems": [
    "C08_drains"
   ],
   "note": "all loader states"
  },
  {
   "property": "C09",
   "status": "proved",
   "theorems": [
    "C09_pop_packed_safe"
   ],
   "note": "all reachable states"
  },
  {
   "property": "C10",
   "status": "proved",
   "theorems": [
    "C10_pop_packed_contents"
   ],
   "note": "all reachable states, sorted or not"
  },
  {
   "property": "C11",
   "status": "proved",
   "theorems": [
    "C11_convex_refuted",
    "C11_interpolation_bound"
   ],
   "note": "false as stated (float weights): refuted; proved up to 2^-22 relative error"
  },
  {
   "property": "C12",
   "status": "proved",
   "theorems": [
    "C12_isolation_refuted",
    "C12_clear_refuted"
   ],
   "note": "false as stated: refuted for two loaders and for Clear"
  },
  {
   "property": "C13",
   "status": "proved",
   "theorems": [
    "C13_frame_ids_consecutive"
   ],
   "note": "all operation sequences with fewer than 2^32-1 added frames"
  },
  {
   "property": "C14",
   "status": "proved",
   "theorems": [
    "C14_get_frame"
   ],
   "note": "all windows with consecutive ids (C13)"
  },
  {
   "property": "C15",
   "status": "proved",
   "theorems": [
    "C15_remove_frame"
   ],
   "note": "all windows and positions"
  },
  {
   "property": "C16",
   "status": "proved",
   "theorems": [
    "C16_add_new_frame"
   ],
   "note": "all windows"
  },
  {
   "property": "C17",
   "status": "proved",
   "theorems": [
    "C17_observe_num"
   ],
   "note": "all operation sequences, duplicates allowed; also proves that no such sequence is undefined behaviour"
  },
  {
   "property": "C18",
   "status": "proved",
   "theorems": [
    "C18_remove_frame_renumber",
    "C18_remove_frame_oldest"
   ],
   "note": "both variants; tracks below 2^32 frames"
  },
  {
   "property": "C19",
   "status": "proved",
   "theorems": [
    "C19_get_norm"
   ],
   "note": "tracks below 2^32 frames"
  },
  {
   "property": "C20",
   "status": "proved",
   "theorems": [
    "C20_window_stores_messages",
    "C20_gap_refuted"
   ],
   "note": "all gap-free histories; refuted with a gap"
  },
  {
   "property": "C21",
   "status": "proved",
   "theorems": [
    "C21_links_agree"
   ],
   "note": "all gap-free histories"
  },
  {
   "property": "C22",
   "status": "proved",
   "theorems": [
    "C22_keyframe_rule",
    "C22_links_live"
   ],
   "note": "all windows with live links; links are proved live for all gap-free histories"
  },
  {
   "property": "C23",
   "status": "proved",
   "theorems": [
    "C23_get_attitude_nearest"
   ],
   "note": "all queues, bit-exact times"
  },
  {
   "property": "C24",
   "status": "proved",
   "theorems": [
    "C24_get_attitude_finds_refuted",
    "C24_get_attitude_finds"
   ],
   "note": "false for a single item later than the request: refuted; proved in every other case"
  },
  {
   "property": "C25",
   "status": "proved",
   "theorems": [
    "C25_clean_old_refuted",
    "C25_clean_old_exact"
   ],
   "note": "false as stated: pops past the end when every item is old; exact behaviour proved"
  },
  {
   "property": "C26",
   "status": "proved",
   "theorems": [
    "C26_gate",
    "C26_attitude_rule",
    "C26_attitude_ordered"
   ],
   "note": "all states and samples"
  },
  {
   "property": "C27",
   "status": "proved",
   "theorems": [
    "C27_reset_origin_exact"
   ],
   "note": "all queues"
  },
  {
   "property": "C28",
   "status": "proved",
   "theorems": [
    "C28_nearest_refuted",
    "C28_within_threshold_refuted",
    "C28_head_before_image"
   ],
   "note": "false as stated: refuted twice; what holds for a head not later than the image is proved"
  },
  {
   "property": "C29",
   "status": "proved",
   "theorems": [
    "C29_repropagate_replays"
   ],
   "note": "all queues, any scalar arithmetic"
  },
  {
   "property": "C30",
   "status": "proved",
   "theorems": [
    "C30_bounded",
    "C30_grows",
    "C30_two_frames"
   ],
   "note": "all histories, all numerical outcomes; window size below 2^32-1"
  },
  {
   "property": "C31",
   "status": "proved",
   "theorems": [
    "C31_safe"
   ],
   "note": "all histories under the front-end contract, any scalar type and solver results; fewer than 2^32-2 features messages"
  },
  {
   "property": "C32",
   "status": "proved",
   "theorems": [
    "C32_camera_refuted",
    "C32_duplicate_refuted",
    "C32_gap_refuted"
   ],
   "note": "false as stated: refuted for an unknown camera, a duplicated id and an id re-appearing after a gap"
  },
  {
   "property": "C33",
   "status": "proved",
   "theorems": [
    "C33_dimensions"
   ],
   "note": "all histories without Reset, failed updates included"
  },
  {
   "property": "C34",
   "status": "proved",
   "theorems": [
    "C34_stuck",
    "C34_recovery_refuted"
   ],
   "note": "false as stated: refuted by Reset with a full window; such a state is proved stuck while the queue is not empty; a failed update leaves the queue empty (C33)"
  },
  {
   "property": "C35",
   "status": "proved",
   "theorems": [
    "C35_initial_state"
   ],
   "note": "true for an empty queue, and with a stale queue the head is proved unchanged: both branches proved"
  },
  {
   "property": "C36",
   "status": "proved",
   "theorems": [
    "C36_result",
    "C36_features",
    "C36_initialization_refuted",
    "C36_update_refuted"
   ],
   "note": "false as stated: refuted twice; exact return value proved"
  },
  {
   "property": "C37",
   "status": "proved",
   "theorems": [
    "C37_published"
   ],
   "note": "all states"
  },
  {
   "property": "C38",
   "status": "proved",
   "theorems": [
    "C38_monotone"
   ],
   "note": "all histories with non-decreasing sample times, Reset and failures included"
  },
  {
   "property": "C39",
   "status": "proved",
   "theorems": [
    "C39_raw",
    "C39_integrated",
    "C39_twice_refuted"
   ],
   "note": "false as stated: refuted by a re-initialization; proved while the back end stays initialized (floats) and per integration step (reals)"
  },
  {
   "property": "C40",
   "status": "proved",
   "theorems": [
    "C40_propagation",
    "C40_repropagation",
    "C40_correction",
    "C40_update"
   ],
   "note": "exact arithmetic; all queues, corrections, solver results and policies"
  },
  {
   "property": "C41",
   "status": "proved",
   "theorems": [
    "C41_uniform_motion",
    "C41_rest"
   ],
   "note": "exact arithmetic with the rounded float time steps"
  },
  {
   "property": "C42",
   "status": "proved",
   "theorems": [
    "C42_covariance_psd"
   ],
   "note": "all queues and sample sequences; Q from non-negative noise parameters"
  },
  {
   "property": "C43",
   "status": "proved",
   "theorems": [
    "C43_clones",
    "C43_no_junk"
   ],
   "note": "all sizes and junk; symmetric prior for the exact-clone statement (the code copies rows then their transpose)"
  },
  {
   "property": "C44",
   "status": "proved",
   "theorems": [
    "C44_submatrix",
    "C44_same_frames"
   ],
   "note": "all sizes and policies; the kept frames are shown to be those of the frame manager"
  },
  {
   "property": "C45",
   "status": "proved",
   "theorems": [
    "C45_contracts"
   ],
   "note": "exact arithmetic and exact eigen-decomposition; optimality of the gain when noise^2 > 1e-10"
  },
  {
   "property": "C46",
   "status": "proved",
   "theorems": [
    "C46_same_update"
   ],
   "note": "exact arithmetic; any orthogonal factor and exact eigen-decompositions"
  },
  {
   "property": "C47",
   "status": "proved",
   "theorems": [
    "C47_nullspace"
   ],
   "note": "exact arithmetic; any orthogonal factor that triangularizes the feature columns"
  },
  {
   "property": "C48",
   "status": "proved",
   "theorems": [
    "C48_measurement",
    "C48_pnp",
    "C48_triangulation"
   ],
   "note": "exact arithmetic; derivatives along every joint perturbation in the error coordinates of the update"
  },
  {
   "property": "C49",
   "status": "proved",
   "theorems": [
    "C49_layout",
    "C49_disjoint",
    "C49_own_columns"
   ],
   "note": "any scalars; tracks inside a window with consecutive ids (C13) and known camera ids"
  },
  {
   "property": "C50",
   "status": "proved",
   "theorems": [
    "C50_selection"
   ],
   "note": "any scalars, solver results, random numbers and iteration orders"
  },
  {
   "property": "C51",
   "status": "proved",
   "theorems": [
    "C51_true_point_in_kernel",
    "C51_kernel_reprojects",
    "C51_exact",
    "C51_success",
    "C51_refuse",
    "C51_finite_refuted"
   ],
   "note": "Exactness proved over the reals for any correct SVD; 'finite point' is refuted for float arithmetic (NaN decomposition)."
  },
  {
   "property": "C52",
   "status": "proved",
   "theorems": [
    "C52_unchanged_refuted",
    "C52_unchanged_otherwise"
   ],
   "note": "False as stated (depth failure stores the point): refuted, and every other failure proved to leave the output alone."
  },
  {
   "property": "C53",
   "status": "proved",
   "theorems": [
    "C53_terminates",
    "C53_cost",
    "C53_cost_float"
   ],
   "note": "Termination for every scalar type and solver; cost monotone in exact arithmetic (initial depth non-zero), and for the computed cost in float arithmetic."
  },
  {
   "property": "C54",
   "status": "proved",
   "theorems": [
    "C54_refuse",
    "C54_bounded",
    "C54_unit",
    "C54_fixed_point",
    "C54_p3p",
    "C54_p3p_refuted"
   ],
   "note": "Fixed point needs a solver answering 0 to a zero right-hand side; the rest holds for every solver."
  },
  {
   "property": "C55",
   "status": "proved",
   "theorems": [
    "C55_terminates_refuted",
    "C55_small_never_ends",
    "C55_terminates_if_fair"
   ],
   "note": "False as stated for one or two points: refuted; termination proved for streams in which three indices keep appearing."
  },
  {
   "property": "C56",
   "status": "proved",
   "theorems": [
    "C56_best_refuted",
    "C56_last",
    "C56_best_on_early_exit"
   ],
   "note": "False as stated (last model is left): refuted; proved to be the best on the early exit."
  },
  {
   "property": "C57",
   "status": "proved",
   "theorems": [
    "C57_flags_refuted",
    "C57_flags_nan_refuted",
    "C57_flags_fresh"
   ],
   "note": "False with a non-empty flag vector and for NaN errors: refuted; proved for a fresh vector in exact arithmetic."
  },
  {
   "property": "C58",
   "status": "proved",
   "theorems": [
    "C58_cauchy",
    "C58_huber"
   ],
   "note": "Real analysis of the Cauchy (and Huber) weight with parameter 1, the only one used."
  },
  {
   "property": "C59",
   "status": "proved",
   "theorems": [
    "C59_level_start_refuted"
   ],
   "note": "false as stated: refuted for every finite gravity value, every libm and every later call sequence"
  },
  {
   "property": "C60",
   "status": "proved",
   "theorems": [
    "C60_initial_angle",
    "C60_never_aligned",
    "C60_alignment_refuted"
   ],
   "note": "false as stated: refuted; exact angle and residual bound theta^3/12 proved"
  },
  {
   "property": "C61",
   "status": "proved",
   "theorems": [
    "C61_conjugate_steps",
    "C61_same_rotation_refuted"
   ],
   "note": "false as stated: refuted; exact relation proved"
  },
  {
   "property": "C62",
   "status": "proved",
   "theorems": [
    "C62_correction_moves_away",
    "C62_correction_refuted"
   ],
   "note": "false as stated: refuted for every non-parallel state and step up to 2/(Kp+Ki) seconds"
  },
  {
   "property": "C63",
   "status": "proved",
   "theorems": [
    "C63_helper_identities"
   ],
   "note": "exact arithmetic"
  },
  {
   "property": "C64",
   "status": "proved",
   "theorems": [
    "C64_error_state_roundtrip",
    "C64_blocks_cover"
   ],
   "note": "all error states; every entry is written"
  },
  {
   "property": "C65",
   "status": "proved",
   "theorems": [
    "C65_pseudo_inverse"
   ],
   "note": "exact arithmetic and exact eigen-decomposition"
  },
  {
   "property": "C66",
   "status": "proved",
   "theorems": [
    "C66_missing",
    "C66_file",
    "C66_complete",
    "C66_parameters",
    "C66_safe",
    "C66_count",
    "C66_always_true",
    "C66_empty_refuted",
    "C66_stale_refuted",
    "C66_text_refuted",
    "C66_long_refuted",
    "C66_singleton_refuted"
   ],
   "note": "a missing file, a complete file, any file line by line, and which floats convert to a count are proved; false as stated for empty, short, over-long and non-numeric files and for a second read: refuted"
  },
  {
   "property": "C67",
   "status": "proved",
   "theorems": [
    "C67_subnew_two_frames_refuted"
   ],
   "note": "false as stated for two frames: refuted; for three or more frames it is part of C20"
  },
  {
   "property": "C68",
   "status": "proved",
   "theorems": [
    "C68_new_item",
    "C68_repropagated",
    "C68_flow_linear",
    "C68_drive_linear"
   ],
   "note": "exact arithmetic; Q holds the configured values themselves, not their squares"
  },
  {
   "property": "C69",
   "status": "proved",
   "theorems": [
    "C69_rotation"
   ],
   "note": "exact arithmetic; proved for every branch of the conversion"
  },
  {
   "property": "C70",
   "status": "proved",
   "theorems": [
    "C70_fresh",
    "C70_meaning",
    "C70_running_refuted"
   ],
   "note": "proved for a new back end, with the meaning of every file; false as stated for a running one: refuted"
  },
  {
   "property": "C71",
   "status": "proved",
   "theorems": [
    "C71_injection",
    "C71_newest"
   ],
   "note": "proved for every scalar type; the column numbers are those of C49"
  },
  {
   "property": "C72",
   "status": "proved",
   "theorems": [
    "C72_safe"
   ],
   "note": "proved for every content of the files; the back end starts from any configuration with two cameras or more"
  },
  {
   "property": "C73",
   "status": "proved",
   "theorems": [
    "C73_loads",
    "C73_range_refuted",
    "C73_short_refuted",
    "C73_any_line",
    "C73_any_camera",
    "C73_any_points"
   ],
   "note": "proved for well-formed files, and the effect of any line; false as stated for the 100 s limit and for short lines: refuted"
  },
  {
   "property": "C74",
   "status": "proved",
   "theorems": [
    "C74_exact"
   ],
   "note": "exact arithmetic"
  },
  {
   "property": "C75",
   "status": "proved",
   "theorems": [
    "C75_runs",
    "C75_all_refuted"
   ],
   "note": "proved for samples in order of time; false that everything loaded is processed: refuted"
  },
  {
   "property": "C76",
   "status": "proved",
   "theorems": [
    "C76_run",
    "C76_published"
   ],
   "note": "exact arithmetic; no assumption on the solvers"
  },
  {
   "property": "C77",
   "status": "proved",
   "theorems": [
    "C77_psd"
   ],
   "note": "exact arithmetic, exact eigen-solver (its existence is proved by Jacobi's method)"
  },
  {
   "property": "C78",
   "status": "proved",
   "theorems": [
    "C78_linearised",
    "C78_unique"
   ],
   "note": "exact arithmetic; derivatives along arbitrary curves of states"
  },
  {
   "property": "C79",
   "status": "proved",
   "theorems": [
    "C79_blind",
    "C79_update"
   ],
   "note": "exact arithmetic, exact QR factors (their existence is proved by Householder reflections) and eigen-solver"
  },
  {
   "property": "C80",
   "status": "proved",
   "theorems": [
    "C80_feedback",
    "C80_bound",
    "C80_windup"
   ],
   "note": "exact arithmetic; any number of samples"
  },
  {
   "property": "C81",
   "status": "proved",
   "theorems": [
    "C81_exact",
    "C81_rest"
   ],
   "note": "exact arithmetic; exact singular value decomposition (existence proved); rest case with a solver that maps zero to zero"
  },
  {
   "property": "C82",
   "status": "proved",
   "theorems": [
    "C82_solver",
    "C82_damping",
    "C82_stop",
    "C82_descent",
    "C82_robust",
    "C82_still",
    "C82_descent_refuted"
   ],
   "note": "exact arithmetic; descent proved for residuals up to 0.01f, refuted beyond; proved for the weighted cost without a bound"
  },
  {
   "property": "C83",
   "status": "proved",
   "theorems": [
    "C83_steps",
    "C83_kernel",
    "C83_stop"
   ],
   "note": "exact arithmetic; the solver is assumed to solve consistent positive semidefinite systems; no claim about the loss when a used residual is exactly 1"
  },
  {
   "property": "C84",
   "status": "proved",
   "theorems": [
    "C84_update",
    "C84_run",
    "C84_published",
    "C84_reset",
    "C84_reset_published"
   ],
   "note": "exact arithmetic; exact singular value decomposition; runs with new initializations start from a settled attitude estimator and zero biases (C39, C60, C62 show why)"
  },
  {
   "property": "C85",
   "status": "proved",
   "theorems": [
    "C85_attitude",
    "C85_queue",
    "C85_newest",
    "C85_doubled_refuted",
    "C85_dropped_refuted"
   ],
   "note": "bit-exact floats; RunOnceTest (which drops a message) is excluded; the queue statement is for histories with one initialization"
  },
  {
   "property": "C86",
   "status": "proved",
   "theorems": [
    "C86_step",
    "C86_shared",
    "C86_initialized",
    "C86_start_refuted"
   ],
   "note": "any arithmetic; the configured biases reach the attitude estimator only with the first update (refuted before)"
  },
  {
   "property": "C87",
   "status": "proved",
   "theorems": [
    "C87_newest_frame",
    "C87_queue",
    "C87_attitude",
    "C87_one_frame_refuted",
    "C87_waiting_refuted"
   ],
   "note": "bit-exact times; samples pushed in order; the queue statement is for histories with one initialization and without RunOnceTest, the attitude statement for windows of at least two frames"
  },
  {
   "property": "C88",
   "status": "proved",
   "theorems": [
    "C88_accepted",
    "C88_forever",
    "C88_level",
    "C88_recovers_refuted"
   ],
   "note": "IEEE binary32 with any libm; the user-level claim is refuted, the lasting effect is proved for every later history; one-item queues after a new initialization are excepted"
  },
  {
   "property": "C89",
   "status": "proved",
   "theorems": [
    "C89_analytic",
    "C89_iterative",
    "C89_views",
    "C89_set_refuted",
    "C89_pnp_safe",
    "C89_pnp_ends",
    "C89_scene",
    "C89_score",
    "C89_stops",
    "C89_leaves",
    "C89_start"
   ],
   "note": "sizes, indices and termination for every scalar type; the geometry over the reals with sin and cos exact; the printed set point of the iterative test is refuted"
  },
  {
   "property": "C90",
   "status": "proved",
   "theorems": [
    "C90_bundle"
   ],
   "note": "over the reals with exact QR and eigen-decompositions; the Jacobians are those of C48; a point must be determined by its views"
  },
  {
   "property": "C91",
   "status": "proved",
   "theorems": [
    "C91_choice",
    "C91_unlocated_refuted"
   ],
   "note": "over the reals with exact factorizations; the statement without the condition on the points is refuted"
  },
  {
   "property": "C92",
   "status": "proved",
   "theorems": [
    "C92_interval",
    "C92_total",
    "C92_sign",
    "C92_order",
    "C92_pnp",
    "C92_nonneg_refuted",
    "C92_exact_refuted",
    "C92_defined_refuted"
   ],
   "note": "bit-exact binary64/binary32; the clock is an arbitrary sequence of int64 nanosecond counts"
  },
  {
   "property": "C93",
   "status": "proved",
   "theorems": [
    "C93_listing",
    "C93_number",
    "C93_frames",
    "C93_last_refuted"
   ],
   "note": "a line is the list of the inserted values; the text of a number is not modelled"
  },
  {
   "property": "C94",
   "status": "proved",
   "theorems": [
    "C94_message",
    "C94_safe",
    "C94_made",
    "C94_imu",
    "C94_config",
    "C94_injective",
    "C94_read",
    "C94_short_refuted",
    "C94_cameras_refuted"
   ],
   "note": "a line is the list of the inserted values; the text of a number is not modelled"
  },
  {
   "property": "C95",
   "status": "proved",
   "theorems": [
    "C95_misfit",
    "C95_near_refuted"
   ],
   "note": "over the real numbers"
  },
  {
   "property": "C96",
   "status": "proved",
   "theorems": [
    "C96_run",
    "C96_parallax"
   ],
   "note": "over the real numbers"
  },
  {
   "property": "C97",
   "status": "proved",
   "theorems": [
    "C97_propagate",
    "C97_repropagate",
    "C97_correction",
    "C97_estimator",
    "C97_finite_refuted",
    "C97_zero_lasts"
   ],
   "note": "bit-exact binary32 within stated ranges; the statement for all finite measurements is refuted"
  },
  {
   "property": "C98",
   "status": "proved",
   "theorems": [
    "C98_step",
    "C98_drift",
    "C98_moves_refuted"
   ],
   "note": "error bounds for the sums in the order of the source; range limits in the statement; a lost-motion witness is proved"
  },
  {
   "property": "C99",
   "status": "proved",
   "theorems": [
    "C99_update",
    "C99_forever",
    "C99_point",
    "C99_recovers_refuted"
   ],
   "note": "IEEE NaN rules only; the projection is the dense product with Q, while the library applies reflections, which spread a NaN in the same way unless a reflection is the identity"
  },
  {
   "property": "C100",
   "status": "proved",
   "theorems": [
    "C100_angle",
    "C100_between",
    "C100_vector",
    "C100_vector_refuted",
    "C100_domain_refuted",
    "C100_translation",
    "C100_euler",
    "C100_degrees"
   ],
   "note": "Exact arithmetic for the positive parts; the float refutations assume only that acos answers NaN below -1."
  },
  {
   "property": "C101",
   "status": "proved",
   "theorems": [
    "C101_covisible"
   ],
   "note": "The function has no caller in the repository."
  },
  {
   "property": "C102",
   "status": "proved",
   "theorems": [
    "C102_reckoning"
   ],
   "note": "The bound needs only the exact run to be in range; that the float run stays in range is part of the conclusion."
  },
  {
   "property": "C103",
   "status": "proved",
   "theorems": [
    "C103_update",
    "C103_state",
    "C103_propagated_refuted"
   ],
   "note": "Float arithmetic; for the state after the update at least one feature must have been measured."
  },
  {
   "property": "C104",
   "status": "proved",
   "theorems": [
    "C104_imu",
    "C104_features",
    "C104_test",
    "C104_answer_refuted"
   ],
   "note": "the effect of the calls and RunOnceTest are proved; false as stated for the answers: refuted"
  },
  {
   "property": "C105",
   "status": "proved",
   "theorems": [
    "C105_queue",
    "C105_attitude",
    "C105_tilt_refuted"
   ],
   "note": "exact arithmetic, unit attitudes, process noise as configured; false as stated for a tilted frame: refuted"
  },
  {
   "property": "C106",
   "status": "proved",
   "theorems": [
    "C106_gain",
    "C106_states",
    "C106_update"
   ],
   "note": "exact arithmetic, unit attitudes; the points are given (algebraic triangulation is not part of the statement)"
  },
  {
   "property": "C107",
   "status": "proved",
   "theorems": [
    "C107_turn",
    "C107_shift_refuted",
    "C107_scale_refuted"
   ],
   "note": "exact arithmetic; independence of origin and unit of length is false: refuted"
  },
  {
   "property": "C108",
   "status": "proved",
   "theorems": [
    "C108_estimate",
    "C108_kernel"
   ],
   "note": "exact arithmetic; single solution of the normal equations required at each pose visited; RANSAC not covered"
  },
  {
   "property": "C109",
   "status": "proved",
   "theorems": [
    "C109_analytic",
    "C109_iterative",
    "C109_pose",
    "C109_rounding_refuted"
   ],
   "note": "exact arithmetic; bit-for-bit independence is false: refuted"
  },
  {
   "property": "C110",
   "status": "proved",
   "theorems": [
    "C110_estimate",
    "C110_kernel",
    "C110_regular_refuted"
   ],
   "note": "exact arithmetic; pairs whose error is exactly one excluded for the weighted form; single solution of the normal equations needed: refuted without"
  }
 ]
}