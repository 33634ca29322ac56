{
 "claims": [
  {
   "property": "C01",
   "status": "proved",
   "theorems": [
    "C01_sorted_unique",
    "C01_insert_free",
    "C01_insert_occupied",
    "C01_echo"
   ],
   "note": "induction over every history of buffer operations"
  },
  {
   "property": "C02",
   "status": "partial",
   "theorems": [
    "C02_closest_value_partial",
    "C02_closest_value_sentinel_refuted",
    "C02_closest_iterator_partial",
    "C02_closest_iterator_two_refuted",
    "C02_queries_agree_partial",
    "C02_nearest_unique"
   ],
   "note": "Proved for the value query and the iterator query; sentinel time -1 s and the two-element buffer under libstdc++ are refuted."
  },
  {
   "property": "C03",
   "status": "partial",
   "theorems": [
    "C03_after",
    "C03_before_partial",
    "C03_before_none_older",
    "C03_before_refuted",
    "C03_first_last_at"
   ],
   "note": "GetClosestBefore returns the oldest element when nothing is older (proved, and the stronger claim refuted)."
  },
  {
   "property": "C04",
   "status": "proved",
   "theorems": [
    "C04_clear_older_than",
    "C04_clear_defined"
   ],
   "note": "for every buffer, age and history"
  },
  {
   "property": "C05",
   "status": "proved",
   "theorems": [
    "C05_move",
    "C05_missing",
    "C05_collision"
   ],
   "note": "free target time, occupied target time, absent source"
  },
  {
   "property": "C06",
   "status": "partial",
   "theorems": [
    "C06_closest_iterator_defined",
    "C06_strict_refuted",
    "C06_libstdcxx_defined_partial"
   ],
   "note": "Every iterator query is defined exactly on non-empty buffers under the behaviour of the libstdc++ tree (C06_libstdcxx_defined_partial); undefined for every inexact query under the wording of the C++ standard (C06_strict_refuted)."
  },
  {
   "property": "C07",
   "status": "proved",
   "theorems": [
    "C07_ignored_until_init"
   ],
   "note": "every call sequence without an initialisation is the identity on an uninitialised filter and publishes nothing"
  },
  {
   "property": "C08",
   "status": "partial",
   "theorems": [
    "C08_clean",
    "C08_forgets_partial",
    "C08_forgets_refuted",
    "C08_only_statics",
    "C08_forgets_first_partial",
    "C08_counter_refuted"
   ],
   "note": "Clean slate proved. Exactly three function statics survive (C08_only_statics): with these equal everything afterwards is the same. With equal clean-up counters nothing of the past shows when every acceleration spike comes after a plausible reading since the initialisation (C08_forgets_first_partial). Refuted without these: a spike as the first reading uses the acceleration remembered from before (C08_forgets_refuted), and the surviving counter makes the first measurement drop old states (C08_counter_refuted)."
  },
  {
   "property": "C09",
   "status": "partial",
   "theorems": [
    "C09_reset_iff_backwards_partial",
    "C09_silent_after_reset",
    "C09_nothing_else_refuted"
   ],
   "note": "exact iff for reachable filters under the hypothesis that predicted positions are numeric; without that hypothesis 'nothing else resets' is refuted by a non-numeric position"
  },
  {
   "property": "C10",
   "status": "proved",
   "theorems": [
    "C10_future_is_queued",
    "C10_too_old_is_dropped",
    "C10_hypotheses_reachable"
   ],
   "note": "both directions, for every filter state with a sorted state buffer (sortedness is proved for every execution)"
  },
  {
   "property": "C11",
   "status": "proved",
   "theorems": [
    "C11_one_per_message",
    "C11_nothing_lost",
    "C11_drains"
   ],
   "note": "one message takes at most the head; conservation as a permutation over any execution without re-initialisation or reset; draining counted in published propagations"
  },
  {
   "property": "C12",
   "status": "partial",
   "theorems": [
    "C12_delay_compensated_partial",
    "C12_arrival_order_irrelevant_partial",
    "C12_full_refuted"
   ],
   "note": "Refinement to a plain time-ordered filter for every session, delay and arrival order (measurements at IMU stamps or interpolated between), total (no UB). Refusable measurements must arrive in stamp order: without that the claim is false (C12_full_refuted)."
  },
  {
   "property": "C13",
   "status": "partial",
   "theorems": [
    "C13_once_each_partial",
    "C13_same_stamp_refuted",
    "C13_same_state_refuted",
    "C13_refused_before_refuted",
    "C13_full_refuted"
   ],
   "note": "Proved for every undisturbed session of the logging instance; false in general: equal stamps, two measurements attached to one state, and a refused late measurement (C13_*_refuted)."
  },
  {
   "property": "C14",
   "status": "proved",
   "theorems": [
    "C14_state_is_near"
   ],
   "note": "0.1 s always; 1 ms whenever two numeric neighbours with valid stamps enclose the time"
  },
  {
   "property": "C15",
   "status": "partial",
   "theorems": [
    "C15_safe_partial",
    "C15_refuted"
   ],
   "note": "full statement refuted by two call sequences; proved for all executions inside an explicit envelope (IMU gaps at start, lateness below 59.9 s)"
  },
  {
   "property": "C16",
   "status": "partial",
   "theorems": [
    "C16_published_is_newest",
    "C16_published_propagated_partial",
    "C16_refused_late_refuted"
   ],
   "note": "Published update = newest state in every execution; in undisturbed sessions it is the plain filter's value and covariance at its own time. False when a late measurement is refused (C16_refused_late_refuted)."
  },
  {
   "property": "C17",
   "status": "proved",
   "theorems": [
    "C17_no_spikes_buffered"
   ],
   "note": "for the buffered and the published states, real vectors, all other numeric operations arbitrary"
  },
  {
   "property": "C18",
   "status": "proved",
   "theorems": [
    "C18_update_keeps_covariance"
   ],
   "note": "every size, over every real field; includes that the innovation covariance is invertible"
  },
  {
   "property": "C19",
   "status": "proved",
   "theorems": [
    "C19_update_shrinks"
   ],
   "note": "every size, over every real field"
  },
  {
   "property": "C20",
   "status": "partial",
   "theorems": [
    "C20_gate",
    "C20_distance_defined",
    "C20_disabled",
    "C20_nan_accepted",
    "C20_nan_refuted",
    "C20_position",
    "C20_pose",
    "C20_pressure",
    "C20_distance",
    "C20_angle",
    "C20_untouched_partial",
    "C20_untouched_refuted"
   ],
   "note": "The gate is exact for numeric residuals and state and covariance are untouched on rejection (C20_gate). For the measurements of the repository (C20_position, C20_pose, C20_pressure, C20_distance, C20_angle) the covariance loses the cross covariances of the variables held fixed before the gate is evaluated, also when the measurement is then rejected; so it is not untouched then (C20_untouched_refuted; C20_untouched_partial without fixed variables). The not-a-number clause is refuted (such a residual is applied)."
  },
  {
   "property": "C21",
   "status": "partial",
   "theorems": [
    "C21_flight_partial",
    "C21_no_negative_variance_partial",
    "C21_shipped_partial",
    "C21_symmetric_iff_partial",
    "C21_keeps_partial",
    "C21_core_noise_decides_partial",
    "C21_symmetric_refuted",
    "C21_semidefinite_refuted",
    "C21_full_refuted",
    "C21_rest_any_refuted",
    "C21_rest_refuted"
   ],
   "note": "All of PredictProcessCovariance and CalcQCore modelled (every generated local and every assignment). False as stated: hovering at rest with the usual noise the predicted covariance is not symmetric, turning at 2 rad/s over a one second gap it has a negative variance (_refuted theorems). Proved: which steps keep covariances is decided by the core process noise alone; it is one when n_ba^2 dt^2 <= 9 n_a^2 and either the gyroscope noise is zero or there is no rotation and no specific force. With all noise sources, in ordinary flight (steps up to 50 ms, up to 0.05 rad per axis and step, 20 n_w^2 |a|^2 <= n_a^2, which the noise shipped for the position sensors meets up to 14 m/s^2) any number of predictions keeps the quadratic form nonnegative, so no variance turns negative; without rotation the noise is symmetric exactly when the force projected on the body y-z plane is parallel to the first two rows of the attitude matrix. The noise shipped for the pose sensor does not meet that, and at rest with the IMU on its side its prediction over 5 ms from certainty is not positive semidefinite (C21_rest_refuted), nor is it with any noise whose accelerometer density is at most 8 times that of the gyroscope and whose bias densities are no larger (C21_rest_any_refuted)."
  },
  {
   "property": "C22",
   "status": "proved",
   "theorems": [
    "C22_refused",
    "C22_core_refused",
    "C22_accepted"
   ],
   "note": "Both for the full prediction with its matrices and for the prediction inside the core machine; a positive step moves the bookkeeping time and leaves everything else of both states alone."
  },
  {
   "property": "C23",
   "status": "partial",
   "theorems": [
    "C23_relative_keeps_covariance",
    "C23_predicted_pair",
    "C23_two_predictions_refuted",
    "C23_absolute_between_refuted"
   ],
   "note": "proved for semidefinite joint covariances and for one prediction between the states; refuted for two predictions in between (wrong product order) and for an absolute update in between, where the assembled matrix is no covariance"
  },
  {
   "property": "C24",
   "status": "partial",
   "theorems": [
    "C24_commuting_partial",
    "C24_reversed",
    "C24_refuted"
   ],
   "note": "refuted: the product has later steps on the right; true when the transition matrices commute"
  },
  {
   "property": "C25",
   "status": "partial",
   "theorems": [
    "C25_ideal_partial",
    "C25_actual_partial",
    "C25_never_symmetric",
    "C25_symmetric_refuted",
    "C25_diagonal_refuted"
   ],
   "note": "symmetry is refuted (the table is not symmetric and the in-place averaging does not make it so), positive diagonal is refuted (gyroscope biases); semidefiniteness, the remaining diagonal and the auxiliary block are proved"
  },
  {
   "property": "C26",
   "status": "proved",
   "theorems": [
    "C26_core_order",
    "C26_core_present",
    "C26_core_order_widths_refuted",
    "C26_tiles_error_state",
    "C26_tiles_state",
    "C26_enum_is_position",
    "C26_lookup_error_code_refuted",
    "C26_core_prefix"
   ],
   "note": "tiling of both vectors for every list without duplicate names; the compile-time lookup's error code for absent names is refuted to be detectable. The compile-time assertions on the order of the core variables hold exactly if p, v, q, b_w, b_a come first in this order (C26_core_order), given their widths, which they do not check (C26_core_order_widths_refuted)."
  },
  {
   "property": "C27",
   "status": "partial",
   "theorems": [
    "C27_own_segment",
    "C27_other_segments_irrelevant",
    "C27_quaternion_options_refuted"
   ],
   "note": "own segment and independence of other segments for every list; refuted for a quaternion declared multiplicative (option ignored)"
  },
  {
   "property": "C28",
   "status": "proved",
   "theorems": [
    "C28_best_reference"
   ],
   "note": "for every list"
  },
  {
   "property": "C29",
   "status": "proved",
   "theorems": [
    "C29_non_propagated_copied",
    "C29_propagated_values",
    "C29_init_copies_only_set"
   ],
   "note": "for every list and value"
  },
  {
   "property": "C30",
   "status": "proved",
   "theorems": [
    "C30_noise_blocks"
   ],
   "note": "for every list; core blocks untouched"
  },
  {
   "property": "C31",
   "status": "proved",
   "theorems": [
    "C31_fixed_bias"
   ],
   "note": "for every standard-layout list, state and correction"
  },
  {
   "property": "C32",
   "status": "partial",
   "theorems": [
    "C32_pose",
    "C32_position",
    "C32_pose_relative",
    "C32_pose_state",
    "C32_position_state",
    "C32_distance_refuted"
   ],
   "note": "Pose (absolute and relative) and position measurements: every entry of the correction that belongs to a fixed variable is zero and the variable comes out unchanged, for any layout, covariance, residual. False for the spherical sensor, whose measurement matrix keeps the columns of the fixed lever arm (C32_distance_refuted)."
  },
  {
   "property": "C33",
   "status": "proved",
   "theorems": [
    "C33_small_angle_unit",
    "C33_correction_unit",
    "C33_prediction_unit",
    "C33_all_executions"
   ],
   "note": "small-angle, correction, prediction (unconditional for any non-zero attitude), and lifted to every execution of the filter machine with any sensors"
  },
  {
   "property": "C34",
   "status": "partial",
   "theorems": [
    "C34_series_refuted",
    "C34_actual_series_partial",
    "C34_increment_partial",
    "C34_accuracy_partial"
   ],
   "note": "the claimed series is refuted (powers 1,2,4,8); what is computed is characterised exactly and its error bounded for constant rates"
  },
  {
   "property": "C35",
   "status": "proved",
   "theorems": [
    "C35_constant_acceleration",
    "C35_split_step",
    "C35_rest"
   ],
   "note": "for every state, reading and step split"
  },
  {
   "property": "C36",
   "status": "proved",
   "theorems": [
    "C36_safe",
    "C36_rows",
    "C36_memory",
    "C36_decision",
    "C36_threshold",
    "C36_restores",
    "C36_update_restores"
   ],
   "note": "over every sequence of checks and resets; the whole update is covered by C36_update_restores"
  },
  {
   "property": "C37",
   "status": "proved",
   "theorems": [
    "C37_median",
    "C37_any_nth_element",
    "C37_order"
   ],
   "note": "for every admissible outcome of nth_element"
  },
  {
   "property": "C38",
   "status": "partial",
   "theorems": [
    "C38_correction_curve",
    "C38_position",
    "C38_pressure",
    "C38_pose_position",
    "C38_pose_position_fixed",
    "C38_pose_attitude",
    "C38_pose_attitude_residual",
    "C38_distance_partial",
    "C38_angle_partial",
    "C38_angle_shortest",
    "C38_relative_position",
    "C38_relative_attitude_sign",
    "C38_layouts",
    "C38_pose_position_refuted",
    "C38_pose_yaw_refuted",
    "C38_distance_refuted",
    "C38_angle_refuted",
    "C38_relative_attitude_refuted"
   ],
   "note": "The derivative of every residual along every error direction is compared with the measurement matrix. It agrees for the position and pressure sensors and the attitude rows of the pose sensor; the p_wv block of the pose sensor, the distance and angle sensors, the yaw row and the relative attitude residual do not match (refuted with witnesses); the partial theorems give the cases in which they do."
  },
  {
   "property": "C39",
   "status": "partial",
   "theorems": [
    "C39_position",
    "C39_pose",
    "C39_pose_pressure_pose",
    "C39_pressure",
    "C39_pressure_refuted",
    "C39_position_pose_partial",
    "C39_position_pose_refuted",
    "C39_distance",
    "C39_angle",
    "C39_angle_refuted"
   ],
   "note": "Zero-residual start proved for position, pose and distance sensors; pressure, position_pose and angle sensors fail in the cases given by the refutations and hold outside them."
  },
  {
   "property": "C40",
   "status": "partial",
   "theorems": [
    "C40_spacing",
    "C40_increasing",
    "C40_accepts",
    "C40_boundary_refuted",
    "C40_small_spacing_refuted",
    "C40_clock_set_back"
   ],
   "note": "Spacing and acceptance characterised for every message sequence; \"at least\" fails at equality (C40_boundary_refuted) and increase fails for spacings below 1 ms (C40_small_spacing_refuted); a clock set back blocks poses until it catches up (C40_clock_set_back)."
  },
  {
   "property": "C41",
   "status": "partial",
   "theorems": [
    "C41_distances",
    "C41_reference",
    "C41_axes",
    "C41_height",
    "C41_ellipsoid",
    "C41_adjust_partial",
    "C41_adjust_exact",
    "C41_adjust_refuted",
    "C41_first_fix",
    "C41_later_fix",
    "C41_second_handler_refuted"
   ],
   "note": "Reference zero, isometry, east/north/up axes and heights proved for all references and points (with Eigen's matrix-to-quaternion conversion). The height adjustment moves the reference along the earth axis: exact effect proved (C41_adjust_partial), requested effect refuted except at the pole; a second handler has no reference (C41_second_handler_refuted)."
  },
  {
   "property": "C42",
   "status": "partial",
   "theorems": [
    "C42_average_partial",
    "C42_startup",
    "C42_startup_refuted",
    "C42_raw_heights",
    "C42_handed_refuted",
    "C42_copy_refuted"
   ],
   "note": "Mean of the last ten readings once ten have been seen (C42_average_partial); refuted during start-up, and the value handed on is not that mean (C42_handed_refuted, C42_copy_refuted)."
  },
  {
   "property": "C43",
   "status": "proved",
   "theorems": [
    "C43_correction",
    "C43_safe",
    "C43_before_first_state_refuted",
    "C43_playback",
    "C43_initial",
    "C43_callback"
   ],
   "note": "Exact in real arithmetic (32-bit message fields not modelled). Before the first controller state was received the correction is refuted to be meaningful."
  },
  {
   "property": "C44",
   "status": "partial",
   "theorems": [
    "C44_pose_layout",
    "C44_pose_symmetric",
    "C44_pose_covariance",
    "C44_pose_transposed",
    "C44_pose_refuted",
    "C44_twist",
    "C44_twist_covariance",
    "C44_roundtrip",
    "C44_write_symmetric",
    "C44_read_transposed",
    "C44_read",
    "C44_read_refuted",
    "C44_submatrix",
    "C44_parts"
   ],
   "note": "Layout, symmetry, semidefiniteness and roundtrip proved for symmetric covariances; for asymmetric ones Eigen's column-major map publishes and reads the transpose (refuted)."
  },
  {
   "property": "C45",
   "status": "partial",
   "theorems": [
    "C45_statistics",
    "C45_minimum",
    "C45_maximum_partial",
    "C45_maximum_exact",
    "C45_maximum_refuted"
   ],
   "note": "Count, sum, mean, rolling mean, variance and minimum proved for all sample sequences; the maximum only for positive samples (C45_maximum_partial), refuted otherwise; exactly when it is right: C45_maximum_exact."
  },
  {
   "property": "C46",
   "status": "partial",
   "theorems": [
    "C46_watchdog_partial",
    "C46_zero_refuted",
    "C46_overflow_refuted",
    "C46_identifiers"
   ],
   "note": "Identifiers proved for every registration order; the watchdog is exact except after numbers 0 and 2^31-1, where it is refuted."
  },
  {
   "property": "C47",
   "status": "proved",
   "theorems": [
    "C47_no_leftovers"
   ],
   "note": "For states used as the older state of any number of predictions with any noise settings; equality of covariance, transition and noise matrix with those computed from freshly constructed matrices."
  },
  {
   "property": "C48",
   "status": "proved",
   "theorems": [
    "C48_transition_flow",
    "C48_split_still",
    "C48_split_turning_refuted"
   ],
   "note": "For the transition matrix written by PredictProcessCovariance on a fresh state with the core variables first. The splitting clause is for zero rate; C48_split_turning_refuted shows that it needs that hypothesis."
  },
  {
   "property": "C49",
   "status": "partial",
   "theorems": [
    "C49_length_unit",
    "C49_time_unit_partial",
    "C49_time_unit_refuted"
   ],
   "note": "Length units: proved for all entries. Time units: false as stated, the gyroscope noise enters the (p,v), (v,v) and (v,q) blocks with the wrong power of dt (C49_time_unit_refuted, witness: hovering); proved for all other blocks and, with zero gyroscope noise, for all blocks."
  },
  {
   "property": "C50",
   "status": "proved",
   "theorems": [
    "C50_well_formed"
   ],
   "note": "Whole filter (Filter.v): core machine, state variables, covariance prediction and the five measurement models in one execution. Assumes well-formed initial states and unit external attitudes. Executions in which the core itself aborts or is undefined (C15) have no final state to speak of."
  },
  {
   "property": "C51",
   "status": "proved",
   "theorems": [
    "C51_fixed_bias"
   ],
   "note": "Over whole executions of the integrated filter, all four shipped state lists, mixed measurements."
  },
  {
   "property": "C52",
   "status": "proved",
   "theorems": [
    "C52_scale_nonneg"
   ],
   "note": "Over whole executions; a negative corrected scale is replaced by 0.1 before the state is kept. Not-a-number states are excluded by the statement."
  },
  {
   "property": "C53",
   "status": "proved",
   "theorems": [
    "C53_position_fixed",
    "C53_pose_fixed"
   ],
   "note": "C53_position_fixed: antenna position, position measurements only; C53_pose_fixed: each of the five pose variables, pose measurements only. A fixed scale must start non-negative."
  },
  {
   "property": "C54",
   "status": "partial",
   "theorems": [
    "C54_covariance_partial",
    "C54_numbers_partial",
    "C54_covariance_refuted",
    "C54_full_refuted"
   ],
   "note": "False with gyroscope noise: after the first IMU reading of a hovering vehicle the covariance is not symmetric (C54_covariance_refuted, C54_full_refuted; cause in C21). Proved for accelerometer noise only; then filters that get position and pressure measurements only never become not-a-number (C54_numbers_partial)."
  },
  {
   "property": "C55",
   "status": "partial",
   "theorems": [
    "C55_accelerometer_partial",
    "C55_integral_exists",
    "C55_third_order_partial",
    "C55_gyro_refuted",
    "C55_full_refuted"
   ],
   "note": "False with gyroscope noise: hovering, the velocity/attitude entry differs in first order of the step (C55_gyro_refuted, C55_full_refuted). Proved exactly for accelerometer noise and, outside the blocks (p,p), (p,v), (v,p), accelerometer bias noise; for all noise but the gyroscope's the difference is at most a multiple of the cube of the step."
  },
  {
   "property": "C56",
   "status": "partial",
   "theorems": [
    "C56_inverse_partial",
    "C56_recovered_partial",
    "C56_untouched",
    "C56_fixed_refuted",
    "C56_full_refuted"
   ],
   "note": "False with a fixed covariance: the handler then never inverts (C56_fixed_refuted, C56_full_refuted). Proved for covariances taken from the sensor, and for sensors that publish their own pose."
  },
  {
   "property": "C57",
   "status": "partial",
   "theorems": [
    "C57_fixed_settings",
    "C57_fixed_values",
    "C57_sensor_covariance",
    "C57_sensor_values",
    "C57_position_refuted",
    "C57_pose_refuted",
    "C57_full_refuted",
    "C57_no_false_alarm",
    "C57_zero_setting"
   ],
   "note": "False for covariances taken from the sensor, which are not checked (C57_position_refuted, C57_pose_refuted). Proved for every fixed nonzero noise setting of all five sensors, and for sensor covariances that are themselves symmetric and positive definite. The values of the noise are given entry by entry (C57_fixed_values, C57_sensor_values)."
  },
  {
   "property": "C58",
   "status": "proved",
   "theorems": [
    "C58_full_state",
    "C58_full_state_determines",
    "C58_core_state",
    "C58_core_vector",
    "C58_core_order_refuted",
    "C58_indices",
    "C58_propagated"
   ],
   "note": "The core arrays need the core variables to come first in the list, which no static assertion checks; without that they are written out of bounds (C58_core_order_refuted). All shipped lists have that order."
  },
  {
   "property": "C59",
   "status": "partial",
   "theorems": [
    "C59_least_squares",
    "C59_orientation",
    "C59_exact_partial",
    "C59_enough_motion",
    "C59_small_motion_refuted",
    "C59_no_motion_refuted",
    "C59_full_refuted",
    "C59_condition",
    "C59_two_needed"
   ],
   "note": "Needs every singular value of the normal matrix to be at least eps; for every eps there are exact data with motion for which the scale comes out as zero (C59_small_motion_refuted, C59_full_refuted). C59_enough_motion says when the singular values are positive. Eigen's decompositions are parameters with their documented properties as hypotheses. C59_condition: the reported condition number is the ratio of the largest to the smallest amplification of the normal matrix, and missing exactly when all pairs have the same position."
  },
  {
   "property": "C60",
   "status": "proved",
   "theorems": [
    "C60_statistics",
    "C60_handles",
    "C60_stable",
    "C60_never_started_refuted",
    "C60_stop_twice_refuted",
    "C60_printed",
    "C60_printed_refuted"
   ],
   "note": "Fewer than 2^31 events. Stronger claims are refuted: a timer that never ran adds the time since the epoch when stopped, stopping twice counts twice, and the table prints a time only modulo one minute."
  },
  {
   "property": "C61",
   "status": "partial",
   "theorems": [
    "C61_walk",
    "C61_constant",
    "C61_quiet",
    "C61_shared",
    "C61_two_sensors_refuted",
    "C61_scale_refuted"
   ],
   "note": "The walk and the constant drift are proved for a process with one distorted pose sensor and non-zero stamps; with two sensors both fail, because the time of the last message is a static variable that all of them share (C61_two_sensors_refuted); C61_shared says what any number of sensors really do."
  },
  {
   "property": "C62",
   "status": "proved",
   "theorems": [
    "C62_monotone",
    "C62_error",
    "C62_order",
    "C62_distinct_refuted",
    "C62_elapsed",
    "C62_threshold",
    "C62_threshold_refuted",
    "C62_nearer",
    "C62_delay",
    "C62_throttle",
    "C62_published",
    "C62_published_refuted"
   ],
   "note": "Binary64 arithmetic from Flocq; the conversions are those of ros::Time, which is not part of the repository. Distinctness and exact republishing are refuted: stamps 100 ns apart become one double (C62_distinct_refuted, C62_published_refuted). A test of an elapsed time against a constant (C62_threshold) and the choice of the nearer entry (C62_nearer) come out on the doubles as on nanoseconds unless within 241, respectively 480, nanoseconds; inside that band they can differ (C62_threshold_refuted)."
  },
  {
   "property": "C63",
   "status": "partial",
   "theorems": [
    "C63_sound",
    "C63_complete_partial",
    "C63_two_refuted",
    "C63_absent",
    "C63_standard_refuted"
   ],
   "note": "Sound for every buffer with libstdc++; complete except with exactly two buffered measurements, where the first is mistaken for the position before the first (C63_two_refuted). Undefined for a time after all buffered ones (C63_absent) and, by the letter of the standard, for every buffered time (C63_standard_refuted)."
  },
  {
   "property": "C64",
   "status": "partial",
   "theorems": [
    "C64_conservative",
    "C64_safe_partial",
    "C64_inputs",
    "C64_first",
    "C64_span_refuted",
    "C64_safe_refuted"
   ],
   "note": "The core machine extended by the transitions stored in the states (Relative.v). Inputs, agreement with Core.v and absence of undefined iterator use proved; the last in the envelope of C15 (C64_safe_full fails like C15, C64_safe_refuted). The product does not cover the time between the states when the old state is interpolated for the occasion: its own transition is then the identity (C64_span_refuted; needs a gap of more than 0.2 s between states). The order of the product is C24_refuted."
  },
  {
   "property": "C65",
   "status": "partial",
   "theorems": [
    "C65_pose",
    "C65_pose_kept",
    "C65_flag_partial",
    "C65_flag_refuted",
    "C65_position",
    "C65_position_flag_refuted",
    "C65_position_flag_partial",
    "C65_pressure",
    "C65_spherical",
    "C65_shared_counter_refuted"
   ],
   "note": "Exact characterisation of what each handler hands on, over sessions. The first-measurement flag of the pose handler is set before the throttle, so it needs stamps beyond the minimum interval (C65_flag_refuted: simulated time near zero); that of the position handler is set by messages that are dropped for lack of a covariance (C65_position_flag_refuted). Topics share one sequence counter, so the watchdog warns although nothing is lost (C65_shared_counter_refuted)."
  },
  {
   "property": "C66",
   "status": "partial",
   "theorems": [
    "C66_well_formed",
    "C66_fixed_bias",
    "C66_scale_partial",
    "C66_scale_above",
    "C66_scale_refuted",
    "C66_pose_fixed",
    "C66_position_fixed",
    "C66_unit_refuted",
    "C66_covariance_refuted",
    "C66_rest",
    "C66_rest_partial",
    "C66_rest_refuted",
    "C66_consistent",
    "C66_defined_partial",
    "C66_defined_refuted",
    "C66_counter_refuted",
    "C66_settings_partial",
    "C66_settings_refuted",
    "C66_height_service",
    "C66_height_partial",
    "C66_height_refuted"
   ],
   "note": "Nodes = front (handlers and managers) followed by the core; invariants of the front lifted through C50-C53 and C15. Refuted parts: the position-pose manager does not normalise the derived vision attitude (C66_unit_refuted); a height request with a pose below the origin starts with a negative scale (C66_scale_refuted; C66_scale_above for poses above the origin); initial covariances are never symmetric (C66_covariance_refuted); the pose-pressure manager reads an unset member when asked to initialise before the first height (C66_defined_refuted) and a counter overflows at INT_MAX (C66_counter_refuted); a refused height request drops the noise settings (C66_settings_refuted); a height request while the pose has height zero starts with not-a-number (C66_height_refuted, C66_height_partial). Absence of undefined behaviour in the core only in the envelope of C15. The initial state explains the readings it was made of (C66_consistent) and is at rest with the accelerometer reading of a platform at rest (C66_rest); the managers use 9.81 m/s^2 and the propagation 9.80834 m/s^2, so the first steps drift (C66_rest_refuted, C66_rest_partial)."
  },
  {
   "property": "C67",
   "status": "partial",
   "theorems": [
    "C67_rows",
    "C67_spacing",
    "C67_distance",
    "C67_exact_partial",
    "C67_exact_refuted",
    "C67_first",
    "C67_errors",
    "C67_angles",
    "C67_zero",
    "C67_frames",
    "C67_terminates",
    "C67_closest_refuted",
    "C67_exit_refuted"
   ],
   "note": "Rows characterised exactly; errors given by the trace of the relative rotation and the gravity directions. The alignment is taken from the first pair compared even if its stamps are a second apart, so perfect synchronised estimates can have errors (C67_exact_refuted; C67_exact_partial when all compared pairs agree). The first estimate that is not older is used, not the closest one (C67_closest_refuted). A recording that cannot be synchronised ends with exit code 0 (C67_exit_refuted)."
  },
  {
   "property": "C68",
   "status": "partial",
   "theorems": [
    "C68_clamp",
    "C68_ranges",
    "C68_settings",
    "C68_request",
    "C68_retry_partial",
    "C68_stuck",
    "C68_retry_refuted",
    "C68_scale",
    "C68_number",
    "C68_value"
   ],
   "note": "The server is modelled after the generated code for a .cfg file and the documented protocol of dynamic_reconfigure (which is not in the repository): parameters are merged, clamped, compared with the old ones and given to the managers. Refuted part: a height request refused for lack of a position leaves its flag set on the server, so a repeated request changes nothing and is ignored until a client clears the flag (C68_retry_refuted, C68_stuck; C68_retry_partial when no flag is left). The real-number model has no NaN, which the generated comparisons would let pass."
  },
  {
   "property": "C69",
   "status": "partial",
   "theorems": [
    "C69_yaw",
    "C69_start",
    "C69_compass",
    "C69_radians_partial",
    "C69_length",
    "C69_degrees_partial",
    "C69_radians_refuted",
    "C69_quaternion_refuted",
    "C69_silent",
    "C69_harmless"
   ],
   "note": "For the position and position-pose nodes (the parameter of the spherical node has another name). The library functions follow their documentation. Refuted parts: headings beyond half a turn are replaced by the nearest bound instead of being wrapped (C69_radians_refuted, C69_radians_partial and C69_degrees_partial up to half a turn); the topic with quaternions never gives a heading because the message is passed where a list is expected (C69_quaternion_refuted, C69_silent). Signed zeros and not-a-number are left out."
  },
  {
   "property": "C70",
   "status": "partial",
   "theorems": [
    "C70_total",
    "C70_straight",
    "C70_reversed",
    "C70_red_of_grey",
    "C70_log",
    "C70_sines",
    "C70_turned",
    "C70_jet",
    "C70_jet_exact",
    "C70_even_refuted",
    "C70_mirror_refuted",
    "C70_mirror_shifted"
   ],
   "note": "Real arithmetic instead of float and double: at a value that is exactly an integer rounding could give the one below. Refuted part: the blue channel of the last palette is shifted by one place too few (nvals - 1 - cntblue instead of nvals - cntblue), so its humps are not evenly spaced (C70_even_refuted) and the palette is not the same from both ends (C70_mirror_refuted, C70_mirror_shifted)."
  },
  {
   "property": "C71",
   "status": "proved",
   "theorems": [
    "C71_relay",
    "C71_in_order",
    "C71_transparent",
    "C71_independent"
   ],
   "note": "Queues are taken never to overflow."
  },
  {
   "property": "C72",
   "status": "partial",
   "theorems": [
    "C72_bins",
    "C72_rows",
    "C72_border_refuted",
    "C72_values",
    "C72_both_least",
    "C72_upper_refuted",
    "C72_drawn",
    "C72_relative",
    "C72_relative_refuted",
    "C72_places",
    "C72_three_sigma",
    "C72_aligned"
   ],
   "note": "Real arithmetic; max, mean, sort, prctile and errorbar as documented by Matlab. Bins, values, places and the shift of paths are characterised exactly. Refuted parts: rows on a border are counted nowhere (C72_border_refuted); the percentiles are 0.05 and 0.95 percent instead of 5 and 95, with up to 52 rows both the least error (C72_both_least, C72_upper_refuted); errorbar is given the percentiles where it takes lengths (C72_drawn); errors are divided by the middle of the bin, not by the distance of the row (C72_relative, C72_relative_refuted); the curve labelled trace 3 sigma is the sum of the standard deviations, between one and sqrt 3 times the root of the trace (C72_three_sigma)."
  },
  {
   "property": "C73",
   "status": "proved",
   "theorems": [
    "C73_omega",
    "C73_xi",
    "C73_xi_orthogonal",
    "C73_error",
    "C73_timehuman",
    "C73_messages"
   ],
   "note": "Real arithmetic; matrices written by rows, quaternion vectors in the order x y z w. The specification of the product is by scalar and vector parts and independent of the model."
  },
  {
   "property": "C74",
   "status": "partial",
   "theorems": [
    "C74_unambiguous",
    "C74_strip",
    "C74_strip_refuted",
    "C74_add",
    "C74_add_refuted",
    "C74_round",
    "C74_is_reference",
    "C74_pointer",
    "C74_no_pointer",
    "C74_const_pointer_refuted",
    "C74_pointer_to_reference",
    "C74_same",
    "C74_same_stripped"
   ],
   "note": "Argument deduction, reference collapsing and the partial ordering of specialisations follow C++11; the tables are those of the header. Refuted parts: rvalue references are not stripped and AddConstReference makes of one a reference to non-const (C74_strip_refuted, C74_add_refuted); a pointer that is const itself counts as no pointer (C74_const_pointer_refuted). None of the uses in the repository has such a type."
  },
  {
   "property": "C75",
   "status": "partial",
   "theorems": [
    "C75_once",
    "C75_cond",
    "C75_throttle",
    "C75_spacing",
    "C75_no_loss",
    "C75_spacing_refuted",
    "C75_no_loss_refuted",
    "C75_clock_back"
   ],
   "note": "The macros for builds without ROS. Printing is characterised exactly (C75_once, C75_cond, C75_throttle). Refuted parts: since the clock is cut to whole seconds, two prints can be a nanosecond apart at a rate of one second (C75_spacing_refuted; C75_spacing bounds the shortfall by a second), and with a rate that is no whole number of seconds a due print can be lost (C75_no_loss_refuted; C75_no_loss otherwise); a clock set back silences the place (C75_clock_back)."
  },
  {
   "property": "C76",
   "status": "partial",
   "theorems": [
    "C76_ranges",
    "C76_request",
    "C76_session",
    "C76_bias_noise",
    "C76_bias_noise_refuted",
    "C76_default_noise",
    "C76_flight",
    "C76_rest_refuted"
   ],
   "note": "The parameter server of MSF_Core.cfg and the getters. The ranges hold after every session and every parameter is the nearest allowed value to the one asked for last. The ranges do not make the conditions of C21 hold: the bias noise over a step of 10 ms can exceed the noise itself (C76_bias_noise_refuted; up to 1 ms it cannot, C76_bias_noise), and the defaults meet them only below 1.2 m/s^2 (C76_default_noise). C76_flight carries C21 through reconfigurations during flight, under those conditions. With the defaults the prediction at rest on the side is not positive semidefinite (C76_rest_refuted)."
  },
  {
   "property": "C77",
   "status": "partial",
   "theorems": [
    "C77_read",
    "C77_without_effect",
    "C77_pose_file",
    "C77_position_file",
    "C77_pose_pressure_file",
    "C77_position_pose_file",
    "C77_scientific",
    "C77_float",
    "C77_int",
    "C77_values",
    "C77_bias_noise_refuted",
    "C77_playback_refuted",
    "C77_viconpos_file",
    "C77_launch_refuted",
    "C77_remap",
    "C77_launch_remaps",
    "C77_shared_topic_refuted",
    "C77_distinct_topics"
   ],
   "note": "False of the shipped files. Proved for every node name which lines are without effect, whatever value is written there (C77_*_file, from the exact condition C77_without_effect), that every other line is read, and which texts YAML 1.1 takes for numbers (C77_float, C77_int, C77_scientific, C77_values). Refuted: the accelerometer bias noise 8e-5 has no point, is a string, and leaves the default (C77_bias_noise_refuted); data_playback is set in the wrong namespace (C77_playback_refuted); viconpos_sensor_fix.yaml names the node and is launched under another name, and aslam_sensor_fix.yaml does not exist (C77_launch_refuted). Of the remappings exactly one, msf_distort/position_input, is without effect in any namespace (C77_launch_remaps), and the position-pose node subscribes twice to transform_input (C77_shared_topic_refuted); the topics of the other nodes are distinct. Services, and the old sensor_fusion.launch of another package, are left out."
  }
 ]
}