{
 "claims": [
  {
   "property": "C01",
   "status": "proved",
   "theorems": [
    "C01_ekf_covariance_psd",
    "C01_ekf_covariance_psd_from"
   ],
   "note": "Over exact reals, for every matrix Eigen's inverse may return. Side conditions per call are in SpecFilter.run_ok."
  },
  {
   "property": "C02",
   "status": "proved",
   "theorems": [
    "C02_unusable_entries_ignored_ekf",
    "C02_unusable_entries_ignored_ukf",
    "C02_nothing_selected"
   ],
   "note": "Non-interference for every scalar type (IEEE included); the empty update over exact reals."
  },
  {
   "property": "C03",
   "status": "proved",
   "theorems": [
    "C03_gate_reject",
    "C03_gate_accept",
    "C03_gate_monotone",
    "C03_nan_distance_accepted"
   ],
   "note": "Accept and reject for the EKF over exact reals with exact inversion; a NaN distance is accepted (IEEE)."
  },
  {
   "property": "C04",
   "status": "proved",
   "theorems": [
    "C04_normalize",
    "C04_predict_normalised",
    "C04_ekf_history",
    "C04_ukf_history"
   ],
   "note": "Exact reals; EKF and UKF histories."
  },
  {
   "property": "C05",
   "status": "proved",
   "theorems": [
    "C05_process_measurement",
    "C05_last_time_ekf",
    "C05_last_time_ukf"
   ],
   "note": "Any scalar type, any subclass; last-time theorem for EKF and UKF."
  },
  {
   "property": "C06",
   "status": "proved",
   "theorems": [
    "C06_first_measurement",
    "C06_first_nan_refuted"
   ],
   "note": "Any scalar type; _refuted: NaN values of the first measurement enter the state."
  },
  {
   "property": "C07",
   "status": "proved",
   "theorems": [
    "C07_ekf_predict_motion",
    "C07_ekf_predict_uncontrolled",
    "C07_zero_interval"
   ],
   "note": "All reachable EKF states; cos(pitch)=0 needs no exclusion because Coq's / is total and the spec divides by the same cosine."
  },
  {
   "property": "C08",
   "status": "proved",
   "theorems": [
    "C08_jacobian",
    "C08_covariance_propagation"
   ],
   "note": "All 225 entries as derivable_pt_lim, all reachable states with cos(pitch) <> 0."
  },
  {
   "property": "C09",
   "status": "proved",
   "theorems": [
    "C09_commanded",
    "C09_bounded",
    "C09_direction",
    "C09_no_overshoot"
   ],
   "note": "Exact reals."
  },
  {
   "property": "C10",
   "status": "proved",
   "theorems": [
    "C10_unselected_axis",
    "C10_default_timeout"
   ],
   "note": "Unselected axes over exact reals; default timeout for every scalar type."
  },
  {
   "property": "C11",
   "status": "proved",
   "theorems": [
    "C11_dynamic_noise",
    "C11_dynamic_noise_psd",
    "C11_dynamic_noise_psd_refuted"
   ],
   "note": "Entry formula, PSD for decoupled noise; _refuted: PSD noise with pose/velocity cross terms becomes indefinite."
  },
  {
   "property": "C12",
   "status": "proved",
   "theorems": [
    "C12_no_variance_growth",
    "C12_innovation_invertible"
   ],
   "note": "Exact inversion assumed as hypothesis eigen_inverse_ok; satisfiable (EigenExist.ideal_inverse). The Kalman form of state and covariance is C03_gate_accept."
  },
  {
   "property": "C13",
   "status": "proved",
   "theorems": [
    "C13_variance_repair",
    "C13_variance_repair_psd",
    "C13_good_variance_kept",
    "C13_negative_variance_refuted"
   ],
   "note": "Exact reals; _refuted: repaired noise may be indefinite with a negative variance and a cross term."
  },
  {
   "property": "C14",
   "status": "proved",
   "theorems": [
    "C14_weights_sum",
    "C14_sigma_moments"
   ],
   "note": "Exact reals, Cholesky law as hypothesis eigen_llt_ok (satisfiable)."
  },
  {
   "property": "C15",
   "status": "proved",
   "theorems": [
    "C15_stale_ignores_covariance",
    "C15_stale_innovation",
    "C15_later_regenerate",
    "C15_second_measurement_ignored_refuted"
   ],
   "note": "Any scalar type for the stale/regenerate theorems; _refuted: a second measurement with the first one's stamp is ignored."
  },
  {
   "property": "C16",
   "status": "proved",
   "theorems": [
    "C16_cross_covariance",
    "C16_cross_covariance_refuted"
   ],
   "note": "_refuted: concrete sigma points for which a yaw-only update gets the x/yaw cross covariance with the wrong sign."
  },
  {
   "property": "C17",
   "status": "proved",
   "theorems": [
    "C17_update_split",
    "C17_fresh_update",
    "C17_fresh_reject"
   ],
   "note": "Full update characterised for fresh sigma points without selected angles; the decomposition holds for arbitrary sigma points."
  },
  {
   "property": "C18",
   "status": "proved",
   "theorems": [
    "C18_predict_ignores_control"
   ],
   "note": "Any scalar type."
  },
  {
   "property": "C19",
   "status": "proved",
   "theorems": [
    "C19_sigma_motion",
    "C19_ekf_same_motion",
    "C19_reachable"
   ],
   "note": "Exact reals."
  },
  {
   "property": "C20",
   "status": "proved",
   "theorems": [
    "C20_two_d_planar",
    "C20_force_planar",
    "C20_two_d_refuted"
   ],
   "note": "EKF, all histories with decoupled measurements; _refuted: cross-covariances kept by forceTwoD let the state leave the plane."
  },
  {
   "property": "C21",
   "status": "proved",
   "theorems": [
    "C21_order_doubles",
    "C21_order_reals",
    "C21_buffer_ordered_bounded",
    "C21_buffer_ordered_bounded_doubles",
    "C21_nan_stamp_blocks"
   ],
   "note": "Any scalar type whose comparisons are a total order on non-NaN values; shown for IEEE doubles and reals. NaN stamps are excluded by hypothesis; C21_nan_stamp_blocks shows what they do."
  },
  {
   "property": "C22",
   "status": "proved",
   "theorems": [
    "C22_newer_stored",
    "C22_equal_newest_dropped",
    "C22_older_inserted",
    "C22_cases",
    "C22_increasing_keeps_latest",
    "C22_shrink_keeps_oldest"
   ],
   "note": "Same generality as C21; boost::circular_buffer semantics are modelled."
  },
  {
   "property": "C23",
   "status": "proved",
   "theorems": [
    "C23_query_codes",
    "C23_exact_verbatim",
    "C23_never_failed_doubles"
   ],
   "note": "Same generality as C21; Failed is never returned."
  },
  {
   "property": "C24",
   "status": "proved",
   "theorems": [
    "C24_anchor",
    "C24_ekf_motion",
    "C24_buffer_untouched",
    "C24_history_independent_ekf",
    "C24_history_independent_ukf"
   ],
   "note": "History independence for any scalar type (IEEE included); the motion step over exact reals."
  },
  {
   "property": "C25",
   "status": "proved",
   "theorems": [
    "C25_forward_covariance_psd",
    "C25_forward_covariance_psd_ukf",
    "C25_covariance_formula",
    "C25_past_covariance_psd_refuted"
   ],
   "note": "EKF over exact reals; the UKF under non-negative weights; _refuted: backward extrapolation yields negative variances."
  },
  {
   "property": "C26",
   "status": "proved",
   "theorems": [
    "C26_queue_exists",
    "C26_ekf_time_neutral",
    "C26_ukf_time_neutral",
    "C26_no_early_fusion",
    "C26_due_fused"
   ],
   "note": "Any scalar type, any subclass, any priority queue that pops some earliest element (ties arbitrary)."
  },
  {
   "property": "C27",
   "status": "proved",
   "theorems": [
    "C27_stamp_order",
    "C27_exactly_once"
   ],
   "note": "Same generality as C26; discarded measurements are accounted for explicitly."
  },
  {
   "property": "C28",
   "status": "proved",
   "theorems": [
    "C28_ekf_in_order",
    "C28_ukf_in_order",
    "C28_order_unique"
   ],
   "note": "EKF and UKF, any scalar type; from node construction. Ties in stamps allowed (some in-order list); with distinct stamps the list is unique. Excludes sensor-timeout projections by hypothesis (intervals = []), since they are not undone."
  },
  {
   "property": "C29",
   "status": "proved",
   "theorems": [
    "C29_revert_exact",
    "C29_revert_empty"
   ],
   "note": "Any scalar type."
  },
  {
   "property": "C30",
   "status": "proved",
   "theorems": [
    "C30_refused_refuted",
    "C30_fused_twice_refuted"
   ],
   "note": "_refuted: general statement over all executions and a concrete run. Absence of double counting with sufficient history is C28 (each received measurement occurs once in the in-order list)."
  },
  {
   "property": "C31",
   "status": "proved",
   "theorems": [
    "C31_history_ordered",
    "C31_history_window"
   ],
   "note": "Expiry compared with the same cycle under a longer history."
  },
  {
   "property": "C32",
   "status": "proved",
   "theorems": [
    "C32_never_backwards",
    "C32_backward_clock_refuted",
    "C32_backward_projection_refuted"
   ],
   "note": "All predictions, including those inside processMeasurement (recording filter). _refuted: a clock that jumps back gives a negative interval."
  },
  {
   "property": "C33",
   "status": "proved",
   "theorems": [
    "C33_timeout"
   ],
   "note": "Any scalar type."
  },
  {
   "property": "C34",
   "status": "proved",
   "theorems": [
    "C34_stale_message",
    "C34_warned",
    "C34_set_pose_barrier"
   ],
   "note": "Barrier over all schedules without a further reset or set_pose."
  },
  {
   "property": "C35",
   "status": "proved",
   "theorems": [
    "C35_publication",
    "C35_remembered_stamp",
    "C35_other_events_quiet"
   ],
   "note": "Content of the message: stamp, position and velocities (orientation and covariances are C42)."
  },
  {
   "property": "C36",
   "status": "proved",
   "theorems": [
    "C36_increasing_stamps",
    "C36_falling_stamps_refuted"
   ],
   "note": "_refuted: with smoothing a run publishes stamps 10, 10+timeout, 12."
  },
  {
   "property": "C37",
   "status": "proved",
   "theorems": [
    "C37_nonfinite_published"
   ],
   "note": "Any scalar type, hence IEEE; example over primitive floats."
  },
  {
   "property": "C38",
   "status": "proved",
   "theorems": [
    "C38_toggle_service",
    "C38_toggled_off_cycle"
   ],
   "note": "All node states."
  },
  {
   "property": "C39",
   "status": "proved",
   "theorems": [
    "C39_disabled_quiet",
    "C39_enable_service",
    "C39_fused_after_enabling"
   ],
   "note": "All schedules."
  },
  {
   "property": "C40",
   "status": "proved",
   "theorems": [
    "C40_unconfigured_covariance",
    "C40_initial_state_lost",
    "C40_reset"
   ],
   "note": "All node states and parameter sets: a start without configured covariances uses the defaults, a reset then installs zero matrices; a configured initial state is lost."
  },
  {
   "property": "C41",
   "status": "proved",
   "theorems": [
    "C41_set_pose",
    "C41_failed"
   ],
   "note": "All node states and messages, over the reals with an exact clock. _failed: an untransformable pose sends the state to zero."
  },
  {
   "property": "C42",
   "status": "proved",
   "theorems": [
    "C42_odometry",
    "C42_acceleration",
    "C42_orientation",
    "C42_angular_acceleration",
    "C42_same_clock_refuted"
   ],
   "note": "All executions of the node; message fields for every scalar type, orientation over the reals. _refuted: two cycles at one clock reading publish a NaN angular acceleration (doubles)."
  },
  {
   "property": "C43",
   "status": "proved",
   "theorems": [
    "C43_map_to_odom",
    "C43_world_is_odom",
    "C43_sent_once"
   ],
   "note": "All poses and rigid lookups over the reals; odom-world case and message count for every scalar type."
  },
  {
   "property": "C44",
   "status": "proved",
   "theorems": [
    "C44_report",
    "C44_each_report",
    "C44_cleared",
    "C44_node"
   ],
   "note": "All sequences of calls and reports; every node execution uses its diagnostics as such a sequence."
  },
  {
   "property": "C45",
   "status": "proved",
   "theorems": [
    "C45_masks",
    "C45_subscribed",
    "C45_acceleration_kept",
    "C45_acceleration_refuted"
   ],
   "note": "All parameter sets (any number of inputs). _refuted: odometry and twist inputs keep acceleration flags."
  },
  {
   "property": "C46",
   "status": "proved",
   "theorems": [
    "C46_sizes",
    "C46_control_vectors"
   ],
   "note": "Exact characterisation (iff) over all parameter lengths; UB is the outcome Undefined."
  },
  {
   "property": "C47",
   "status": "proved",
   "theorems": [
    "C47_unmeasured",
    "C47_unmeasured_y",
    "C47_multiple",
    "C47_lateral_refuted"
   ],
   "note": "Exact (iff) for the five other variables; for Y the exact condition as coded, and _refuted witnesses of both wrong reports."
  },
  {
   "property": "C48",
   "status": "proved",
   "theorems": [
    "C48_prefixed",
    "C48_empty",
    "C48_separators_refuted",
    "C48_prefix_unused"
   ],
   "note": "All strings; _refuted: separators that survive; frames never prefixed, for all parameter sets."
  },
  {
   "property": "C49",
   "status": "proved",
   "theorems": [
    "C49_imu_parts",
    "C49_before_set_pose"
   ],
   "note": "Every scalar type, all messages and configurations."
  },
  {
   "property": "C50",
   "status": "proved",
   "theorems": [
    "C50_velocities",
    "C50_same_stamp_refuted"
   ],
   "note": "All executions interleaving the stream with anything of other streams, over the reals. _refuted: a repeated stamp yields NaN velocities (doubles)."
  },
  {
   "property": "C51",
   "status": "proved",
   "theorems": [
    "C51_motion_from_first",
    "C51_starts_at_zero",
    "C51_invariant",
    "C51_other_frame_refuted"
   ],
   "note": "All executions, over the reals. _refuted: when the message frame is not the world frame the first pose is measured at the frame offset, not zero."
  },
  {
   "property": "C52",
   "status": "proved",
   "theorems": [
    "C52_pose",
    "C52_twist",
    "C52_acceleration",
    "C52_imu_orientation"
   ],
   "note": "All messages, over the reals."
  },
  {
   "property": "C53",
   "status": "proved",
   "theorems": [
    "C53_turned",
    "C53_turned_twist",
    "C53_turned_acceleration",
    "C53_executions",
    "C53_restored",
    "C53_two_d_refuted"
   ],
   "note": "All messages and rotations, and all executions in three dimensions. _refuted: two_d_mode can make a positive semi-definite covariance indefinite."
  },
  {
   "property": "C54",
   "status": "proved",
   "theorems": [
    "C54_twist",
    "C54_acceleration"
   ],
   "note": "All rigid motions (derivatives), mountings and messages, over the reals."
  },
  {
   "property": "C55",
   "status": "proved",
   "theorems": [
    "C55_removed",
    "C55_at_rest",
    "C55_mounted",
    "C55_mounted_refuted"
   ],
   "note": "All attitudes for aligned sensors, at rest and in motion; the exact error for rotated mountings at rest. _refuted: an upside-down mounting measures 2g."
  },
  {
   "property": "C56",
   "status": "proved",
   "theorems": [
    "C56_order",
    "C56_exact_time",
    "C56_unavailable"
   ],
   "note": "Every scalar type, all buffers, frames and times."
  },
  {
   "property": "C57",
   "status": "proved",
   "theorems": [
    "C57_gps_lookup",
    "C57_gps_refuted",
    "C57_pose_lookup",
    "C57_pose_transform",
    "C57_twist_lookup",
    "C57_pose_refuted"
   ],
   "note": "Pose measurements (PropsPrepare) and GPS odometry (PropsNavsat) over the reals, all stamps and executions, with witnesses."
  },
  {
   "property": "C58",
   "status": "proved",
   "theorems": [
    "C58_control_neutral",
    "C58_replay_controls_refuted",
    "C58_control_lost_refuted"
   ],
   "note": "_refuted: exact characterisation of the controls used in every replay, and a run losing the latest control."
  },
  {
   "property": "C59",
   "status": "proved",
   "theorems": [
    "C59_search",
    "C59_queries",
    "C59_changed_tree_refuted"
   ],
   "note": "Any tree; endless recursion (a cycle above the source and no hit) is characterized. Stale answers after tree changes are exhibited."
  },
  {
   "property": "C60",
   "status": "proved",
   "theorems": [
    "C60_stored",
    "C60_first_of_second",
    "C60_only_messages",
    "C60_ros_query",
    "C60_ros_answer"
   ],
   "note": "Any scalar satisfying order_ok and seconds_ok (int32 seconds are exact; proved for the reals)."
  },
  {
   "property": "C61",
   "status": "proved",
   "theorems": [
    "C61_conversion",
    "C61_query",
    "C61_ros_time",
    "C61_float_refuted"
   ],
   "note": "Over the reals for all times and executions; the float case 3 s is a witness."
  },
  {
   "property": "C62",
   "status": "proved",
   "theorems": [
    "C62_own_frames",
    "C62_other_frames",
    "C62_succeeds",
    "C62_kinematics"
   ],
   "note": "Own frames: any scalar. Other frames: exact arithmetic, Affine3d::rotation() keeps rotations, lookups give unit quaternions."
  },
  {
   "property": "C63",
   "status": "proved",
   "theorems": [
    "C63_automatic",
    "C63_manual"
   ],
   "note": "All executions over the reals, automatic and manual datum, with and without a known antenna offset."
  },
  {
   "property": "C64",
   "status": "proved",
   "theorems": [
    "C64_round_trip",
    "C64_local",
    "C64_local_zone",
    "C64_local_refuted",
    "C64_distance",
    "C64_hemisphere",
    "C64_equator_refuted"
   ],
   "note": "All reachable states over the reals; the projection library is a parameter. _refuted: local-cartesian mode and points across the equator."
  },
  {
   "property": "C65",
   "status": "proved",
   "theorems": [
    "C65_publication",
    "C65_unusable",
    "C65_odometry_refuted"
   ],
   "note": "Every scalar type, all executions. _refuted: with publish_filtered_gps off a single odometry message serves every later publication."
  },
  {
   "property": "C66",
   "status": "proved",
   "theorems": [
    "C66_antenna",
    "C66_unknown_refuted"
   ],
   "note": "All executions over the reals. _refuted: unknown mounting publishes the origin."
  },
  {
   "property": "C67",
   "status": "proved",
   "theorems": [
    "C67_projections",
    "C67_local_refuted",
    "C67_zone_refuted"
   ],
   "note": "The exact discrepancy for all executions; _refuted witnesses for local-cartesian mode and for a zone boundary."
  },
  {
   "property": "C68",
   "status": "proved",
   "theorems": [
    "C68_gps_flat",
    "C68_map_flat",
    "C68_filtered_altitude",
    "C68_filtered_refuted"
   ],
   "note": "GPS odometry and map answers: every scalar type. The altitude of the filtered fix is given exactly; _refuted: it is not zero."
  },
  {
   "property": "C69",
   "status": "proved",
   "theorems": [
    "C69_unusable_before",
    "C69_request",
    "C69_kept",
    "C69_completes_auto",
    "C69_completes_manual"
   ],
   "note": "Every scalar type, all executions; completion is characterized exactly for the automatic datum."
  },
  {
   "property": "C70",
   "status": "proved",
   "theorems": [
    "C70_meridian",
    "C70_zone",
    "C70_antimeridian_refuted"
   ],
   "note": "All real longitudes. _refuted: at 180 and -180 degrees the meridian (183, -183) is of none of the sixty zones."
  },
  {
   "property": "C71",
   "status": "proved",
   "theorems": [
    "C71_streams_distinct"
   ],
   "note": "All parameter sets."
  },
  {
   "property": "C72",
   "status": "proved",
   "theorems": [
    "C72_control_axes",
    "C72_control_used"
   ],
   "note": "All parameter sets."
  },
  {
   "property": "C73",
   "status": "proved",
   "theorems": [
    "C73_reconstructs"
   ],
   "note": "Exact arithmetic, principal angle ranges."
  },
  {
   "property": "C74",
   "status": "proved",
   "theorems": [
    "C74_angles",
    "C74_decomposition",
    "C74_heading_refuted"
   ],
   "note": "Exact arithmetic, all rotations; heading_refuted shows the jump."
  },
  {
   "property": "C75",
   "status": "proved",
   "theorems": [
    "C75_construct",
    "C75_invalid_type",
    "C75_empty_refuted"
   ],
   "note": "Any scalar; empty_refuted contradicts the documented return value."
  },
  {
   "property": "C76",
   "status": "proved",
   "theorems": [
    "C76_memory"
   ],
   "note": "Every scalar type, all executions."
  },
  {
   "property": "C77",
   "status": "proved",
   "theorems": [
    "C77_exceptions"
   ],
   "note": "Every scalar type, every state and event."
  },
  {
   "property": "C78",
   "status": "proved",
   "theorems": [
    "C78_imu_forgotten"
   ],
   "note": "Every scalar type, all executions."
  },
  {
   "property": "C79",
   "status": "proved",
   "theorems": [
    "C79_gps_covariance",
    "C79_fix_covariance"
   ],
   "note": "All executions over the reals."
  },
  {
   "property": "C80",
   "status": "proved",
   "theorems": [
    "C80_broadcast",
    "C80_completion"
   ],
   "note": "All executions over the reals."
  },
  {
   "property": "C81",
   "status": "proved",
   "theorems": [
    "C81_symmetric",
    "C81_meridian",
    "C81_equator"
   ],
   "note": "Over the reals; tan and pow are those of the standard library of Coq."
  },
  {
   "property": "C82",
   "status": "proved",
   "theorems": [
    "C82_kept",
    "C82_turned_refuted",
    "C82_default_refuted"
   ],
   "note": "Over the reals, with an exact lower triangular Cholesky factor."
  },
  {
   "property": "C83",
   "status": "proved",
   "theorems": [
    "C83_predicted_psd",
    "C83_resting_psd"
   ],
   "note": "Over the reals. The condition on the angular differences is a hypothesis of the first theorem and proved for the level, unturning case."
  },
  {
   "property": "C84",
   "status": "proved",
   "theorems": [
    "C84_first_correction",
    "C84_gain_refuted"
   ],
   "note": "Over the reals, with an exact inverse."
  },
  {
   "property": "C85",
   "status": "proved",
   "theorems": [
    "C85_information",
    "C85_order",
    "C85_gate_refuted",
    "C85_ukf_refuted"
   ],
   "note": "Over the reals, with an exact inverse and positive definite noise on the selected variables. The refuted forms are witnesses."
  },
  {
   "property": "C86",
   "status": "proved",
   "theorems": [
    "C86_fresh",
    "C86_filter",
    "C86_options",
    "C86_control",
    "C86_disabled",
    "C86_transposed",
    "C86_symmetric",
    "C86_row_major_refuted"
   ],
   "note": "For every scalar type. The publisher, subscriber and service objects that the constructor creates are not modelled. The refuted form is a witness."
  },
  {
   "property": "C87",
   "status": "proved",
   "theorems": [
    "C87_fused",
    "C87_messages",
    "C87_listed",
    "C87_long_refuted",
    "C87_short_refuted"
   ],
   "note": "For every scalar type. Access.v lists the indices along the path a message takes; correct_access_ok and init_access_ok cover fusion. C87_listed ties the lists to the preparation: every flag that a queued measurement has changed is at a listed index. The refuted forms are witnesses with 14 and 16 flags."
  },
  {
   "property": "C88",
   "status": "proved",
   "theorems": [
    "C88_pose",
    "C88_velocity",
    "C88_acceleration",
    "C88_velocity_refuted"
   ],
   "note": "C88_pose over the reals, without two_d_mode and for non-differential streams; the theorems about velocities and accelerations for every scalar type. The refuted form is a witness."
  },
  {
   "property": "C89",
   "status": "proved",
   "theorems": [
    "C89_in_effect",
    "C89_after",
    "C89_filters",
    "C89_determined",
    "C89_tag",
    "C89_refused",
    "C89_unstamped",
    "C89_reset_refuted"
   ],
   "note": "Every scalar type, all executions. C89_in_effect and C89_after assume no smoothing or no control, because lagged replay restores older commands (C35). The refuted form is a witness."
  },
  {
   "property": "C90",
   "status": "proved",
   "theorems": [
    "C90_datum",
    "C90_completes"
   ],
   "note": "Every scalar type, all executions. Assumes that the projection library uses the zone it is asked for (honours_zone), an external assumption."
  },
  {
   "property": "C91",
   "status": "proved",
   "theorems": [
    "C91_started",
    "C91_unused",
    "C91_filters",
    "C91_preparations",
    "C91_early_refuted"
   ],
   "note": "Every scalar type, all executions, both filters. The comparison leaves out the command member itself. The refuted form is a witness over the reals."
  },
  {
   "property": "C92",
   "status": "proved",
   "theorems": [
    "C92_answer",
    "C92_undefined",
    "C92_order",
    "C92_rows",
    "C92_filters",
    "C92_failed",
    "C92_failure_refuted",
    "C92_row_major_refuted"
   ],
   "note": "C92_rows over the reals for filters without dynamic process noise; the others for every scalar type. rclcpp sends the response whatever the callback returns (external assumption). The refuted forms are witnesses."
  },
  {
   "property": "C93",
   "status": "proved",
   "theorems": [
    "C93_messages",
    "C93_published",
    "C93_correlated_refuted"
   ],
   "note": "C93_published: exact reals, EKF, two_d_mode off, arbitrary Eigen inverse, arbitrary tie-breaks; composition of loadParams, the message callbacks, preparePose/Twist/Acceleration, the node and the filter. The angular part of the acceleration covariance is not included. C93_messages for every scalar type and filter. The refuted form is a witness."
  },
  {
   "property": "C94",
   "status": "proved",
   "theorems": [
    "C94_forced",
    "C94_planar",
    "C94_unequal_refuted",
    "C94_control_refuted"
   ],
   "note": "C94_forced for every scalar type, filter and queue order. C94_planar: exact reals, EKF, composition of start-up, callbacks, preparation, forceTwoD, node and filter; the message environment's two_d_mode is the loaded one. The UKF is not covered. The refuted forms are witnesses; C94_control_refuted is at filter level (the node passes commands on unchanged, C90)."
  },
  {
   "property": "C95",
   "status": "proved",
   "theorems": [
    "C95_origin",
    "C95_unobserved",
    "C95_unfixed_refuted"
   ],
   "note": "Exact reals, EKF. C95_origin composes start-up, callbacks, preparation, queue, lagged replay, set_pose, reset, filter and publication by a relational simulation of two runs; the queue's tie-breaks must depend on times only (time_blind; shown of the list queue). In two_d_mode the distance must be horizontal. C95_unobserved is the case of distance zero. The refuted claim shows why the initialising measurement must measure the axes."
  },
  {
   "property": "C96",
   "status": "proved",
   "theorems": [
    "C96_origin"
   ],
   "note": "Exact reals, UKF with any weights summing to one. The node-level simulation of C95 is shared (it is stated for any filter). The last hypothesis excludes only corrections at or before the time of the initialisation, before any prediction: the sigma points are then zero (see C15) and the gating of such a measurement depends on the origin."
  },
  {
   "property": "C97",
   "status": "proved",
   "theorems": [
    "C97_times",
    "C97_current",
    "C97_toggled",
    "C97_past",
    "C97_span"
   ],
   "note": "Causality follows by applying C97_times to every prefix of an execution. The stamp of a set_pose request and of a velocity command never becomes a time of the filter (they are not among the times brought). C97_span is about the integers the code computes with; see the list of what is not modelled for the remaining overflow questions."
  },
  {
   "property": "C98",
   "status": "proved",
   "theorems": [
    "C98_heading",
    "C98_noise_refuted"
   ],
   "note": "Filter level, exact reals. C98_noise_refuted shows why the process noise must not prefer a horizontal direction. The UKF is not covered: its sigma points follow a Cholesky factor, which does not turn with the covariance."
  },
  {
   "property": "C99",
   "status": "proved",
   "theorems": [
    "C99_filter",
    "C99_ukf_filter",
    "C99_epoch",
    "C99_ukf_epoch",
    "C99_zero_refuted",
    "C99_left_over_refuted"
   ],
   "note": "C99_filter and C99_ukf_filter hold for every Scalar and so for IEEE doubles; the node theorems are over exact reals, where seconds are the exact quotient of nanoseconds. The queue may break ties in any way that looks at the order of times only (order_blind; shown of the list queue). The two refuted claims mark the two places where the program compares with a zero time that was never set."
  },
  {
   "property": "C100",
   "status": "proved",
   "theorems": [
    "C100_least_squares",
    "C100_optimal",
    "C100_parts",
    "C100_parts_gate_refuted"
   ],
   "note": "Angles are included in C100_least_squares and C100_optimal: nearest_reading takes the reading of an angle in the turn nearest to the state. C100_parts is for variables other than angles, since taking the nearest turn depends on the state in between. C100_parts_gate_refuted: a unit prior and fixes of x and y one unit away, each with squared distance 1/2, pass a threshold of 1 one by one; together they are rejected."
  },
  {
   "property": "C101",
   "status": "proved",
   "theorems": [
    "C101_certainty",
    "C101_prediction",
    "C101_average",
    "C101_variance",
    "C101_gate_refuted"
   ],
   "note": "Exact reals. C101_certainty and C101_average cover measurements of angles too. C101_prediction compares two covariances and process noises from the same state; between two filters whose states differ the Jacobians differ and no such order holds in general."
  },
  {
   "property": "C102",
   "status": "proved",
   "theorems": [
    "C102_weights",
    "C102_sums",
    "C102_vanishing",
    "C102_finite_refuted"
   ],
   "note": "C102_weights for every scalar arithmetic; C102_sums over exact reals; C102_vanishing and its witness in primitive floats for every math library that converts 15 exactly. Orientations are not covered by C102_vanishing: they come from the library's atan2."
  },
  {
   "property": "C103",
   "status": "proved",
   "theorems": [
    "C103_arc",
    "C103_series",
    "C103_close",
    "C103_monotone",
    "C103_mirror"
   ],
   "note": "Exact reals; tan, sin, cos, sqrt and pow are the exact functions. C103_arc compares with the true flattening of WGS84, C103_series and C103_close with the ellipsoid of the ten-digit eccentricity in the source. The remainder of the conformal series after the sixth coefficient is not estimated."
  },
  {
   "property": "C104",
   "status": "proved",
   "theorems": [
    "C104_course",
    "C104_filter",
    "C104_node",
    "C104_late_refuted"
   ],
   "note": "Exact reals. The conditions on measurements are put on the calls of processMeasurement: on the histories of API calls for the filter, on the fusions in the output for the node. A reset leaves a zero state, a start the configured initial state; completes asks that what the first measurement leaves out is so already. C104_late_refuted is the observed behaviour without smooth_lagged_data. EKF only: the UKF's mean over sigma points is not the motion of the mean."
  },
  {
   "property": "C105",
   "status": "proved",
   "theorems": [
    "C105_ekf",
    "C105_ukf",
    "C105_estimate",
    "C105_node_ekf",
    "C105_node_ukf"
   ],
   "note": "Every scalar arithmetic. The node theorems compare with the filter at the start; C86_filter and C86_control say which parameters that one carries. Without configured process noise a reset installs the zero matrix, see C40_unconfigured_covariance."
  },
  {
   "property": "C106",
   "status": "proved",
   "theorems": [
    "C106_mirror",
    "C106_tie_refuted",
    "C106_limit_refuted"
   ],
   "note": "Filter level, exact reals. C106_tie_refuted and C106_limit_refuted show why ties and negative limits are excluded."
  },
  {
   "property": "C107",
   "status": "proved",
   "theorems": [
    "C107_message",
    "C107_node",
    "C107_turning_refuted",
    "C107_left_over_refuted"
   ],
   "note": "Messages that are neither differential nor relative. C107_turning_refuted and C107_left_over_refuted show why the node has to know how the robot turns. Cycles that share a time are excluded: there the code divides zero by zero, which the reals of Coq do not show."
  },
  {
   "property": "C108",
   "status": "proved",
   "theorems": [
    "C108_filter",
    "C108_time",
    "C108_node",
    "C108_correlated_refuted"
   ],
   "note": "C108_filter bounds the covariance from below in the order of quadratic forms. Dynamic process noise counts as no growth. The node theorem is for three dimensions and leaves out the growth; the growth is proved at filter level."
  },
  {
   "property": "C109",
   "status": "proved",
   "theorems": [
    "C109_window",
    "C109_window_short",
    "C109_ticks",
    "C109_met",
    "C109_timer",
    "C109_half",
    "C109_double",
    "C109_slow_refuted",
    "C109_published_refuted",
    "C109_unprinted",
    "C109_unprinted_refuted",
    "C109_overrun"
   ],
   "note": "diagnostic_updater's FrequencyStatus is external and transcribed in Supervise.v. Its limits are judged over exact reals; the windows, counts and the case without print_diagnostics hold in every arithmetic."
  },
  {
   "property": "C110",
   "status": "proved",
   "theorems": [
    "C110_outcome",
    "C110_round_trip",
    "C110_round_back",
    "C110_nearby",
    "C110_failed",
    "C110_mixed_refuted",
    "C110_short"
   ],
   "note": "GeographicLib is a parameter of functions that may fail. That Reverse undoes Forward and that designators name their zone are hypotheses at the point in question."
  },
  {
   "property": "C111",
   "status": "proved",
   "theorems": [
    "C111_exactly",
    "C111_set_pose",
    "C111_pose",
    "C111_imu",
    "C111_pole",
    "C111_refuted"
   ],
   "note": "Exact reals, except C111_pole (every scalar type). The branch for |m20| >= 1 is in tf2 (Matrix3x3::getEulerYPR, transcribed in Tf.v); on a rotation matrix its atan2 has two zero arguments. Differential and relative streams are not covered."
  },
  {
   "property": "C112",
   "status": "proved",
   "theorems": [
    "C112_restored",
    "C112_two_d",
    "C112_refuted"
   ],
   "note": "Exact reals. Assumes that a lookup from a frame to itself finds the identity or nothing (self_known). A frame that names another world frame is covered by C111, not here."
  }
 ]
}