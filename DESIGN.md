# Formal model of robot_localization in Rocq/Coq

Source: `/repo` (cra-ros-pkg/robot_localization, pinned). All line numbers cited in
the model refer to that tree.  Coq 8.16.1, files under `rocq/theories`
(logical name `Verif`).

## 1. Shape of the model

Model files contain definitions only; each definition cites the lines it stands for.

| file | code |
|------|------|
| `Scalar.v` | the C++ `double` as a record of operations: arithmetic, comparisons, `isnan`/`isinf`, trigonometry, rounding |
| `Mat.v` | Eigen vectors and matrices as index functions, the operations the code uses |
| `FilterBase.v`, `FilterOps.v` | `filter_base.cpp/.hpp`, `measurement.hpp`, `filter_common.hpp`, `filter_utilities.hpp`; histories of its public calls |
| `Ekf.v`, `Ukf.v` | `ekf.cpp`, `ukf.cpp` |
| `ForceTwoD.v` | `RosFilter::forceTwoD` |
| `Estimator.v` | `robot_localization_estimator.cpp` over boost's circular buffer |
| `StrMap.v`, `Diagnostics.v` | `std::map<std::string, ...>`; diagnostics of the node |
| `RosFilter.v` | the node: measurement queue, history, callbacks, services, periodic update, output messages |
| `RosConfig.v` | `RosFilter::loadParams`, start of the node |
| `RosPrepare.v` | `preparePose`, `prepareTwist`, `prepareAcceleration`, the message callbacks, `ros_filter_utilities.cpp` |
| `Tf.v` | tf2 linear algebra called by the code (external, from the tf2 headers) |
| `Access.v` | which entries of an update vector `preparePose`, `prepareTwist`, `prepareAcceleration`, `copyCovariance` and `forceTwoD` touch |
| `Listener.v` | `ros_robot_localization_listener.cpp` and the service of its node |
| `Navsat.v` | `navsat_transform.cpp` |
| `Conversions.v` | `UTM()` of `navsat_conversions.hpp` |

`Spec*.v` are small specification files that do not use the model's helpers.
`Props*.v` hold the theorems named in `MANIFEST.json`, each a one-line reference to a
lemma, with `Print Assumptions` and an example that meets its hypotheses.  All other
files are lemmas and witnesses.

No laws are attached to the record `Scalar`, so a theorem stated for every `Scalar`
holds for IEEE doubles, too.  `RScalar` is the exact-real instance (algebraic
theorems), `FScalar` the IEEE binary64 instance (Coq primitive floats, used for NaN
witnesses; trigonometric functions are parameters there).

Time is `Z` nanoseconds (`rclcpp::Time`, `rclcpp::Duration`).  Undefined behaviour
(out-of-range access, null dereference, out-of-range cast, endless recursion) is a
distinct outcome where the code can reach it; an uncaught exception is another one
(`Navsat.v`).  Calls to external code are function arguments; what a theorem needs of
them is a hypothesis in its statement.

## 2. Plan per property

| id | modelled | proof |
|----|----------|-------|
| C01 | Ekf predict/correct over R | invariant, quadratic forms, Joseph form for arbitrary gain |
| C02 | Ekf/Ukf correct over any Scalar | non-interference between two measurements |
| C03 | gate in Ekf/Ukf correct | case analysis, any Scalar; monotonicity over R |
| C04 | normalize_angle, wrapStateAngles | real arithmetic, invariant over histories |
| C05 | processMeasurement | unfolding, induction over measurement lists |
| C06 | processMeasurement initialisation | pointwise frame theorem, any Scalar; NaN witness |
| C07 | Ekf predict | equality with a kinematic spec over R |
| C08 | Ekf Jacobian | derivative (`derivable_pt_lim`) of each entry |
| C09, C10 | computeControlAcceleration, prepareControl | case analysis over R |
| C11 | computeDynamicProcessNoiseCovariance | quadratic forms, counterexample |
| C12 | Ekf correct with inverse law | matrix algebra |
| C13 | measurement subset construction | pointwise |
| C14-C19 | Ukf | sums over sigma points; non-interference; witnesses |
| C82-C84 | Ukf predict, and correct after it | trigonometric bounds on the circular mean; quadratic forms; refinement to a Kalman update |
| C85 | Ekf/Ukf correct, sequences | information form of the update; permutation; witnesses |
| C86 | loadParams and a started node | unfolding the load, invariants over events; witness |
| C87 | update-vector accesses | index bounds, length invariant of queue and history; witnesses |
| C88 | covariance reports | diagnostic calls of copyCovariance, key by key; witness |
| C89 | velocity commands | trace invariant relating the filter's command to the last accepted event; witness |
| C90 | UTM-zone requests | trace invariant on the fixes since the request |
| C91 | uninitialised command | simulation between two executions that differ in that memory; witness |
| C92 | get_state service | index arithmetic; symmetry as an invariant of listener executions; witnesses |
| C93 | a started EKF node over messages | invariant carried through node executions, composed with C01, C53, C86; witness |
| C94 | a started EKF node in two_d_mode | invariant over queue, history and filter; rotation about the vertical preserves level covariances; witnesses |
| C95 | the choice of the origin | relational simulation of two runs: filter step, preparation, node; witness |
| C96 | the choice of the origin, UKF | the same simulation; weights sum to one, sigma points move together |
| C97 | where the times come from | invariant: the times kept are among those brought; stamps of a cycle from the filter time at its end |
| C98 | choice of the heading | simulation of two EKF histories; a turn of x and y commutes with motion, Jacobian, gain and Joseph form |
| C99 | choice of the epoch | simulation of two runs whose times differ by a constant; unset (zero) times kept apart by a lower bound; witnesses |
| C100 | a correction is the best estimate | completing the square in the misfit and along each direction of the covariance; block weights of a measurement in parts; witness |
| C101 | tuning covariances | from the optimality of the gain (C100); induction over the measurements; witness |
| C102 | main programs of the filter nodes | invariant of the filter's own members through all node steps; float lemmas on infinities |
| C103 | UTM() | mean value theorem on the arc and its series; uniqueness of derivatives gives the coefficients; polynomial identities |
| C104 | EKF told the truth | invariant along histories and executions; zero innovation makes every gain harmless; explicit motion |
| C105 | settings stay as set | induction over histories of calls and over executions |
| C106 | the filter in a mirror | simulation of two histories; sign changes commute with motion, control, Jacobian, gain and Joseph form |
| C107 | sensors that tell the truth | rigid-body kinematics of each message type; node invariant: queue, history and snapshots are true; refuted witnesses |
| C108 | dead reckoning | quadratic forms: position columns of the Jacobian and of H are those of the identity and zero; invariant over histories and in the node; refuted witness |
| C109 | update rate diagnostic | induction over acts of the monitor (queue of marks); refinement of the node's calls to those acts; linear arithmetic for the limits; refuted witnesses by computation |
| C110 | LLtoUTM and UTMtoLL | case analysis over the outcomes of the library; refuted witness on a plane |
| C111 | set_pose, pose inputs, IMU | orthonormality of the rotation at the pole; refuted witness nose down |
| C112 | odometry message and set_pose | Euler angles and quaternion undo each other, pole case from C111; refuted witness nose down |
| C20 | Ekf + forceTwoD | block-structure invariant over histories; witness |
| C21-C25 | estimator | list invariants, induction over operation lists |
| C26-C33, C58 | node queue/history/cycle with arbitrary tie-breaks | invariants over operation lists, refinement to in-order fold |
| C34-C41 | node callbacks and services | state-machine invariants |
| C42, C43 | output messages, tf2 algebra | trigonometry over R |
| C44 | diagnostics maps | induction over events |
| C45-C48, C71, C72 | loadParams and string helpers | list reasoning, UB outcome, witnesses |
| C49-C57 | imuCallback, prepareX, lookupTransformSafe | case analysis, vector identities, witnesses |
| C59-C62, C73-C75 | listener | cache invariant, integer arithmetic, vector identities |
| C63-C69, C76-C80 | navsat_transform | state machine invariants, rigid transforms, relational proofs over executions, abstract projection |
| C70, C81 | UTM() | real/integer arithmetic |

## 3. Trusted base

* Coq 8.16.1's kernel, including its virtual machine (`vm_compute` is used in
  witnesses) and primitive floats and 63-bit integers.
* The axioms that `Print Assumptions` lists per theorem, section 7.  All of them come
  from Coq's standard library; the development adds none, and no other library is used.
* The reading of the C++ code: that the definitions say what the cited lines do.
  `seeded/LOG.jsonl` records edits of the definitions and the theorems that then fail.
* The semantics of external code, section 5.

### Parts of the code that are not modelled

* Debug output (`FB_DEBUG`, `RF_DEBUG`, `setDebug`), log lines, printing operators
  (`filter_utilities.cpp`), message texts of diagnostics beyond a representative.
* `navsat_transform_node.cpp` and the `main` of `robot_localization_listener_node.cpp`
  (construction and spinning of nodes); names and shutdown in `ekf_node.cpp` and
  `ukf_node.cpp` (the rest is in Mains.v); queue sizes and quality-of-service settings.
* The `diagnostic_updater` package beyond the report it is handed and its frequency
  task, which is transcribed (Supervise.v).
* Concurrency: callbacks run one at a time (the nodes use a single-threaded executor).
  Arrival order of messages, timer firings and clock readings are arbitrary.
* The synchroniser of the listener and transforms that arrive during one query.
* Memory allocation failure, integer overflow of nanosecond counts (but see C97_span), stamps whose
  nanosecond field exceeds 10^9 or whose seconds are negative (`rclcpp::Time` throws),
  rounding of the diagnostics period.
* Rounding of `double` in theorems about exact reals.  Each theorem's statement shows
  whether it is about every scalar type, the reals or primitive floats; the notes in
  `MANIFEST.json` repeat it.

## 4. Statements about exact reals

Over `RScalar` no value is NaN or infinite, comparisons are exact, `sin`, `cos`, `sqrt`,
`asin`, `atan2` are the real functions, and division is Coq's total one.  A theorem
over the reals is a statement about the algorithm, not about rounding.  Facts about
control flow, data flow, times, queues, maps and messages are proved for every scalar
type.

## 5. Assumptions about external code

These appear as parameters (with hypotheses where a theorem needs them) or as
definitions transcribed from the headers:

* Eigen: `inverse()` is an arbitrary function; where exactness matters the hypothesis
  `eigen_inverse_ok` is in the statement and shown satisfiable.  Same for `llt()`
  (`eigen_llt_ok`); C82-C84 also use that it is lower triangular (`eigen_llt_lower`).
  `eulerAngles`, quaternion products and `toRotationMatrix` follow the headers of Eigen
3.3/3.4.  `Affine3d::rotation()` is a parameter; hypothesis
  `keeps_rotations`.
* `angles::normalize_angle`: `fmod(a + pi, 2 pi)` shifted into (-pi, pi].
* tf2: `Vector3`, `Quaternion`, `Matrix3x3`, `Transform` as in the headers (`Tf.v`).
  The buffer is an arbitrary function from frames and time to a transform or failure.
  `tf2::timeFromSec` and `tf2::timeToSec` are parameters; hypothesis `exact_clock`.
* rclcpp sends the response of a service whatever the callback returns, and its
  fields start at zero (C92).
* rclcpp: `Time(int64)` and `Duration::from_seconds` truncate to nanoseconds;
  `Time(double)` converts to the int64 constructor.
* `std::priority_queue`: any container that satisfies `pq_ok`; the order of equal
  stamps is arbitrary.
* `diagnostic_updater`: `FrequencyStatus` as in `update_functions.hpp` (tick, run, a ring of
  counts and times); its constructor adds the task to the updater, which also has a timer.
* `boost::circular_buffer`: `push_back`, `insert`, `set_capacity` as documented.
* yaml-cpp: the value of a missing key reads as the empty string.
* GeographicLib: the parameter records `geolib` and `conv_lib`, with failure (`GeographicErr`) as an
  outcome; hypotheses (invertibility, agreement with a plane, use of the requested zone)
  are in the statements.
* C library: `tan` and `pow` are parameters of `UTM()`.

## 6. Claims that turned out false, and other findings

A claim that the code does not satisfy is stated together with a witness theorem named
`..._refuted`.

| theorem | finding |
|---|---|
| `C06_first_nan_refuted` | The first measurement enters state and covariance without the NaN filter of later ones. |
| `C11_dynamic_noise_psd_refuted` | Dynamic process noise with pose/velocity cross terms can be indefinite. |
| `C13_negative_variance_refuted` | Repairing a negative variance leaves the cross terms; the result can be indefinite. |
| `C15_second_measurement_ignored_refuted` | The UKF keeps the sigma points of the last prediction: a state set from outside, and a second measurement with the same stamp as the first, are ignored. |
| `C16_cross_covariance_refuted` | The UKF normalises the state difference at the subset position instead of the state index. |
| `C20_two_d_refuted` | forceTwoD keeps off-diagonal covariances, so a correlated measurement moves the state out of the plane. |
| `C25_past_covariance_psd_refuted` | Extrapolation into the past subtracts process noise. |
| `C30_refused_refuted`, `C30_fused_twice_refuted` | A message older than the kept history is not refused: the measurements from the oldest snapshot on are fused again, one of them twice in a concrete run. |
| `C32_backward_clock_refuted`, `C32_backward_projection_refuted` | A clock that goes back gives predictions over negative intervals. |
| `C36_falling_stamps_refuted` | With smoothing a suppressed correction lowers the remembered stamp, and an older stamp is published later. |
| `C42_same_clock_refuted` | Two cycles at one clock reading publish a NaN angular acceleration. |
| `C45_acceleration_refuted` | Odometry and twist inputs keep acceleration flags and fuse zero acceleration with zero covariance. |
| `C47_lateral_refuted` | The report on unmeasured variables counts the inputs of Vx for Y. |
| `C48_separators_refuted` | appendPrefix drops one leading separator only and adds its own after a trailing one; the configured tf_prefix is never applied to the frames (`C48_prefix_unused`). |
| `C50_same_stamp_refuted` | A differential pose that repeats the stamp of its predecessor divides by zero. |
| `C51_other_frame_refuted` | The first relative pose is not zero when its frame is not the world frame. |
| `C53_two_d_refuted` | two_d_mode can make a measurement covariance indefinite. |
| `C55_mounted_refuted` | Gravity is subtracted in the sensor frame from an acceleration in the base frame. |
| `C57_pose_refuted`, `C57_gps_refuted` | rclcpp::Time is built from seconds where nanoseconds are expected. |
| `C58_replay_controls_refuted`, `C58_control_lost_refuted` | Replays after a reversion use the wrong controls, and the newest control is lost. |
| `C59_changed_tree_refuted` | Cached ancestor answers survive changes of the frame tree. |
| `C61_float_refuted` | A query time of 3 s overflows the cast to int. |
| `C64_local_refuted`, `C64_equator_refuted` | mapToLL always uses the inverse UTM projection with the hemisphere of the datum. |
| `C65_odometry_refuted` | odom_updated_ is cleared only by the filtered fix; without it one odometry message serves every publication. |
| `C66_unknown_refuted` | An unknown antenna mounting publishes the world origin. |
| `C67_local_refuted`, `C67_zone_refuted` | Fixes are always projected with UTM in their own zone. |
| `C68_filtered_refuted` | zero_altitude does not apply to the filtered fix. |
| `C70_antimeridian_refuted` | At 180 and -180 degrees the central meridian is 183 and -183. |
| `C74_heading_refuted` | Transformed listener answers report headings in (-pi, 0) as upside down. |
| `C75_empty_refuted` | The listener returns true for an empty buffer. |
| `C82_turned_refuted`, `C82_default_refuted` | A UKF prediction averages directions: above an angle variance of 2 the heading of a vehicle at rest turns by pi, and with the default constants its variance becomes negative. |
| `C85_gate_refuted` | Of two fixes of one time, the outlier gate can accept one only after the other: the estimate depends on their order. |
| `C85_ukf_refuted` | Two accepted fixes of one variable give different unscented estimates in the two orders. |
| `C86_row_major_refuted` | A `process_noise_covariance` or `initial_estimate_covariance` of 225 entries is read column by column, so an asymmetric one is transposed. |
| `C87_long_refuted` | An update vector of 16 flags is accepted; the first twist measurement then writes `state_[15]`. |
| `C87_short_refuted` | An update vector of 14 flags is accepted for a twist input; in `two_d_mode` a message then writes flag 14. |
| `C88_velocity_refuted` | A used velocity with zero variance is queued without a report: `copyCovariance` tests `update_vector[i]` instead of `update_vector[offset + i]` (ros_filter.cpp 2579, 2589). |
| `C89_reset_refuted` | A reset keeps the velocity command given before it in the filter: later predictions use it. |
| `C91_early_refuted` | Before `control_timeout` has passed on the clock (simulated time near zero) the EKF predicts with the uninitialised `latest_control_`. |
| `C92_failure_refuted` | A `get_state` request whose query fails is answered with a zero state and covariance, which a client cannot tell from a success. |
| `C92_row_major_refuted` | `get_state` answers the covariance column by column although GetState.srv says row-major; this shows for asymmetric covariances. |
| `C93_correlated_refuted` | An initial covariance that correlates variables (parameter, or a set_pose before the first measurement) becomes indefinite with the first measurement, which replaces only the entries of the variables it measures; the node publishes it. |
| `C94_unequal_refuted` | A diagonal message covariance with unequal roll and pitch (rate) variances, rotated by the yaw of the sensor frame, gets a cross term; forceTwoD replaces the variances by 1e-6 and keeps the cross term, so the queued covariance is indefinite. |
| `C94_control_refuted` | two_d_mode does not mask commands: with the vertical velocity among control_config a prediction sets the vertical acceleration. |
| `C95_unfixed_refuted` | The position published before any position was measured is the initial state, so it does not move with the origin; a velocity alone initialises the filter. |
| `C84_gain_refuted` | The first UKF correction after a prediction uses a gain that ignores the process noise just added. |
| `C98_noise_refuted` | Process noise in x only makes the estimate depend on the heading of the world frame. |
| `C99_zero_refuted` | A message stamped zero is refused by a node that has never been sent a set_pose request. |
| `C99_left_over_refuted` | The first published angular acceleration divides by the clock reading minus an uninitialised member. |
| `C100_parts_gate_refuted` | Whether independent readings are rejected depends on whether they arrive in one message or in several: the whole is rejected where its parts are accepted under the same threshold. |
| `C102_finite_refuted` | A positive alpha so small that alpha^2 (15 + kappa) is lost beside 15 is accepted and makes every prediction non-finite. |
| `C106_tie_refuted` | A measured angle exactly opposite to the expected one is always resolved to the same side. |
| `C106_limit_refuted` | Negative acceleration limits are accepted; with them a robot at rest that is commanded to stay at rest is predicted to accelerate. |
| `C107_turning_refuted` | The lever arm of a sensor is corrected with the angular velocity of the last estimate, zero at first: a twist sensor off the centre of a turning robot gives a false velocity until the node has learnt the turning. |
| `C107_left_over_refuted` | `angular_acceleration_` is uninitialised until the first cycle after initialisation, but corrects accelerations before that. |
| `C108_correlated_refuted` | A position variance can fall without a measurement of the position: a velocity measurement reduces it through the correlation. The bound of C108 is one on the whole covariance. |
| `C109_published_refuted` | The frequency diagnostic named after the topic odometry/filtered ticks on updates, also on those whose message is held back: one message per second at a frequency of 10 Hz is reported as the desired frequency. |
| `C109_slow_refuted` | The lower limit is frequency - 2, so up to 2 Hz no rate is too low. |
| `C109_unprinted_refuted` | The frequency task is registered without print_diagnostics as well, but ticks only with it: the updater then reports the error "No events recorded" about a node that publishes. |
| `C110_mixed_refuted` | LLtoUTM has written easting, northing and convergence when MGRS::Forward throws, so that the caller is left with the coordinates of the new point and the old zone. |
| `C111_refuted` | A pose with a vertical forward axis sets roll and heading to zero: the Euler angles are read from two zero entries of the rotation matrix. |
| `C112_refuted` | A node whose published attitude is vertical does not get it back when the published pose is sent to set_pose. |
| `C104_late_refuted` | Without smooth_lagged_data a measurement that is true but late is compared with the present estimate and moves it away from the truth; its age is not taken into account. |
| `C101_gate_refuted` | Declaring less measurement noise can make the filter less certain: the measurement is then rejected. |

Findings stated inside proved theorems: reset installs zero covariances when none are
configured and loses the initial state (C40); a failed `preparePose` in `set_pose` sends
the state to zero (C41); too short configuration arrays are read out of bounds (C46);
the listener stamps states with whole seconds (C60); a short process noise list or an
invalid filter type is undefined behaviour in the listener (C75); the navsat node can be
ended by an uncaught exception, by `fromLL` even before a transform exists (C77); after
the first transform the IMU is forgotten, so later transforms use the old heading (C78);
points of the equator get the southern false northing (C81).

Observed while reading, without a theorem of their own: the UKF without `setConstants`
reads an uninitialised `lambda_`; `latest_control_` of the filter is uninitialised until
the first command; the covariance of a differential pose is multiplied by the interval;
`getEulerYPR` loses roll or yaw at gimbal lock; `cartesian_z` is ignored.

## 7. Assumptions of each theorem

Output of `Print Assumptions`, grouped.  Names are those of the standard library.

Closed under the global context (164 theorems): C05_last_time_ekf, C05_last_time_ukf,
C05_process_measurement, C06_first_measurement, C102_weights, C105_ekf, C105_estimate,
C105_node_ekf, C105_node_ukf, C105_ukf, C109_ticks, C109_unprinted, C109_window,
C109_window_short, C110_failed, C110_nearby, C110_outcome, C110_round_back, C110_round_trip,
C110_short, C111_pole, C15_later_regenerate, C15_stale_ignores_covariance,
C15_stale_innovation, C18_predict_ignores_control, C21_buffer_ordered_bounded, C22_cases,
C22_equal_newest_dropped, C22_increasing_keeps_latest, C22_newer_stored, C22_older_inserted,
C22_shrink_keeps_oldest, C23_exact_verbatim, C23_query_codes, C24_anchor,
C24_buffer_untouched, C26_due_fused, C26_ekf_time_neutral, C26_no_early_fusion,
C26_queue_exists, C26_ukf_time_neutral, C27_exactly_once, C27_stamp_order, C28_order_unique,
C29_revert_empty, C29_revert_exact, C30_fused_twice_refuted, C30_refused_refuted,
C31_history_ordered, C31_history_window, C32_backward_clock_refuted,
C32_backward_projection_refuted, C32_never_backwards, C33_timeout, C34_set_pose_barrier,
C34_stale_message, C34_warned, C35_other_events_quiet, C35_publication,
C35_remembered_stamp, C36_falling_stamps_refuted, C36_increasing_stamps,
C37_nonfinite_published, C38_toggle_service, C38_toggled_off_cycle, C39_disabled_quiet,
C39_enable_service, C39_fused_after_enabling, C40_initial_state_lost, C40_reset,
C40_unconfigured_covariance, C42_acceleration, C42_angular_acceleration, C42_odometry,
C43_sent_once, C43_world_is_odom, C44_cleared, C44_each_report, C44_node, C44_report,
C45_acceleration_kept, C45_masks, C45_subscribed, C46_control_vectors, C46_sizes,
C47_multiple, C47_unmeasured, C47_unmeasured_y, C48_empty, C48_prefix_unused, C48_prefixed,
C48_separators_refuted, C49_before_set_pose, C49_imu_parts, C56_order, C56_unavailable,
C58_control_lost_refuted, C58_control_neutral, C58_replay_controls_refuted,
C59_changed_tree_refuted, C59_queries, C59_search, C60_first_of_second, C60_only_messages,
C60_ros_answer, C60_ros_query, C60_stored, C62_own_frames, C65_publication, C65_unusable,
C68_gps_flat, C68_map_flat, C69_completes_auto, C69_completes_manual, C69_kept, C69_request,
C69_unusable_before, C71_streams_distinct, C72_control_axes, C72_control_used,
C75_construct, C75_empty_refuted, C75_invalid_type, C76_memory, C77_exceptions,
C78_imu_forgotten, C86_control, C86_disabled, C86_filter, C86_fresh, C86_options,
C86_symmetric, C86_transposed, C87_fused, C87_listed, C87_messages, C88_acceleration,
C88_velocity, C89_after, C89_determined, C89_filters, C89_in_effect, C89_refused, C89_tag,
C89_unstamped, C90_completes, C90_datum, C91_filters, C91_preparations, C91_started,
C91_unused, C92_answer, C92_failed, C92_order, C92_undefined, C93_messages, C94_forced,
C97_current, C97_past, C97_span, C97_times, C97_toggled, C99_filter, C99_ukf_filter.

`FunctionalExtensionality.functional_extensionality_dep` (7 theorems):
C02_unusable_entries_ignored_ekf, C02_unusable_entries_ignored_ukf, C10_default_timeout,
C24_history_independent_ekf, C24_history_independent_ukf, C28_ekf_in_order,
C28_ukf_in_order.

`ClassicalDedekindReals.sig_forall_dec`,
`FunctionalExtensionality.functional_extensionality_dep` (4 theorems): C09_bounded,
C09_direction, C09_no_overshoot, C17_update_split.

`ClassicalDedekindReals.sig_forall_dec`, `ClassicalDedekindReals.sig_not_dec`,
`FunctionalExtensionality.functional_extensionality_dep` (1 theorem): C104_course.

`ClassicalDedekindReals.sig_forall_dec`, `ClassicalDedekindReals.sig_not_dec`,
`Classical_Prop.classic`, `FunctionalExtensionality.functional_extensionality_dep` (192
theorems): C01_ekf_covariance_psd, C01_ekf_covariance_psd_from, C02_nothing_selected,
C03_gate_accept, C03_gate_monotone, C03_gate_reject, C04_ekf_history, C04_normalize,
C04_predict_normalised, C04_ukf_history, C07_ekf_predict_motion,
C07_ekf_predict_uncontrolled, C07_zero_interval, C08_covariance_propagation, C08_jacobian,
C09_commanded, C100_least_squares, C100_optimal, C100_parts, C100_parts_gate_refuted,
C101_average, C101_certainty, C101_gate_refuted, C101_prediction, C101_variance, C102_sums,
C103_arc, C103_close, C103_mirror, C103_monotone, C103_series, C104_filter,
C104_late_refuted, C104_node, C106_limit_refuted, C106_mirror, C106_tie_refuted,
C107_left_over_refuted, C107_message, C107_node, C107_turning_refuted,
C108_correlated_refuted, C108_filter, C108_node, C108_time, C109_double, C109_half,
C109_met, C109_overrun, C109_slow_refuted, C109_timer, C10_unselected_axis,
C110_mixed_refuted, C111_exactly, C111_imu, C111_pose, C111_refuted, C111_set_pose,
C112_refuted, C112_restored, C112_two_d, C11_dynamic_noise, C11_dynamic_noise_psd,
C11_dynamic_noise_psd_refuted, C12_innovation_invertible, C12_no_variance_growth,
C13_good_variance_kept, C13_negative_variance_refuted, C13_variance_repair,
C13_variance_repair_psd, C14_sigma_moments, C14_weights_sum,
C15_second_measurement_ignored_refuted, C16_cross_covariance, C16_cross_covariance_refuted,
C17_fresh_reject, C17_fresh_update, C19_ekf_same_motion, C19_reachable, C19_sigma_motion,
C20_force_planar, C20_two_d_planar, C20_two_d_refuted, C21_order_reals, C24_ekf_motion,
C25_covariance_formula, C25_forward_covariance_psd, C25_forward_covariance_psd_ukf,
C25_past_covariance_psd_refuted, C41_failed, C41_set_pose, C42_orientation, C43_map_to_odom,
C45_acceleration_refuted, C47_lateral_refuted, C50_velocities, C51_invariant,
C51_motion_from_first, C51_other_frame_refuted, C51_starts_at_zero, C52_acceleration,
C52_imu_orientation, C52_pose, C52_twist, C53_executions, C53_restored, C53_turned,
C53_turned_acceleration, C53_turned_twist, C53_two_d_refuted, C54_acceleration, C54_twist,
C55_at_rest, C55_mounted, C55_mounted_refuted, C55_removed, C56_exact_time, C57_gps_lookup,
C57_gps_refuted, C57_pose_lookup, C57_pose_refuted, C57_pose_transform, C57_twist_lookup,
C61_conversion, C61_query, C61_ros_time, C62_kinematics, C62_other_frames, C62_succeeds,
C63_automatic, C63_manual, C64_distance, C64_equator_refuted, C64_hemisphere, C64_local,
C64_local_refuted, C64_local_zone, C64_round_trip, C65_odometry_refuted, C66_antenna,
C66_unknown_refuted, C67_local_refuted, C67_projections, C67_zone_refuted,
C68_filtered_altitude, C68_filtered_refuted, C70_antimeridian_refuted, C70_meridian,
C70_zone, C73_reconstructs, C74_angles, C74_decomposition, C74_heading_refuted,
C79_fix_covariance, C79_gps_covariance, C80_broadcast, C80_completion, C81_equator,
C81_meridian, C81_symmetric, C82_default_refuted, C82_kept, C82_turned_refuted,
C83_predicted_psd, C83_resting_psd, C84_first_correction, C84_gain_refuted,
C85_gate_refuted, C85_information, C85_order, C85_ukf_refuted, C86_row_major_refuted,
C87_long_refuted, C87_short_refuted, C88_pose, C88_velocity_refuted, C89_reset_refuted,
C91_early_refuted, C92_failure_refuted, C92_filters, C92_row_major_refuted, C92_rows,
C93_published, C94_control_refuted, C94_planar, C95_origin, C95_unobserved, C96_origin,
C98_heading, C98_noise_refuted, C99_epoch, C99_ukf_epoch.

`ClassicalDedekindReals.sig_forall_dec`, `ClassicalDedekindReals.sig_not_dec`,
`ClassicalEpsilon.constructive_indefinite_description`, `Classical_Prop.classic`,
`FunctionalExtensionality.functional_extensionality_dep` (5 theorems):
C93_correlated_refuted, C94_unequal_refuted, C95_unfixed_refuted, C99_left_over_refuted,
C99_zero_refuted.

`PrimFloat.abs`, `PrimFloat.add`, `PrimFloat.div`, `PrimFloat.eqb`, `PrimFloat.float`,
`PrimFloat.leb`, `PrimFloat.ltb`, `PrimFloat.mul`, `PrimFloat.opp`, `PrimFloat.sqrt`,
`PrimFloat.sub` (3 theorems): C06_first_nan_refuted, C42_same_clock_refuted,
C61_float_refuted.

`PrimFloat.abs`, `PrimFloat.add`, `PrimFloat.div`, `PrimFloat.eqb`, `PrimFloat.float`,
`PrimFloat.leb`, `PrimFloat.ltb`, `PrimFloat.mul`, `PrimFloat.of_uint63`, `PrimFloat.opp`,
`PrimFloat.sqrt`, `PrimFloat.sub`, `PrimInt63.int`, `PrimInt63.lor`, `PrimInt63.lsl`,
`PrimInt63.sub` (3 theorems): C109_published_refuted, C109_unprinted_refuted,
C50_same_stamp_refuted.

`FloatAxioms.eqb_spec`, `FloatAxioms.leb_spec`, `PrimFloat.abs`, `PrimFloat.add`,
`PrimFloat.div`, `PrimFloat.eqb`, `PrimFloat.float`, `PrimFloat.frshiftexp`,
`PrimFloat.leb`, `PrimFloat.ltb`, `PrimFloat.mul`, `PrimFloat.normfr_mantissa`,
`PrimFloat.opp`, `PrimFloat.sqrt`, `PrimFloat.sub`, `PrimInt63.eqb`, `PrimInt63.int`,
`PrimInt63.land`, `PrimInt63.lsr` (1 theorem): C03_nan_distance_accepted.

`FloatAxioms.eqb_spec`, `FloatAxioms.ltb_spec`, `PrimFloat.abs`, `PrimFloat.add`,
`PrimFloat.div`, `PrimFloat.eqb`, `PrimFloat.float`, `PrimFloat.frshiftexp`,
`PrimFloat.leb`, `PrimFloat.ltb`, `PrimFloat.mul`, `PrimFloat.normfr_mantissa`,
`PrimFloat.opp`, `PrimFloat.sqrt`, `PrimFloat.sub`, `PrimInt63.eqb`, `PrimInt63.int`,
`PrimInt63.land`, `PrimInt63.lsr` (1 theorem): C21_nan_stamp_blocks.

`FloatAxioms.eqb_spec`, `FloatAxioms.leb_spec`, `FloatAxioms.ltb_spec`, `PrimFloat.abs`,
`PrimFloat.add`, `PrimFloat.div`, `PrimFloat.eqb`, `PrimFloat.float`,
`PrimFloat.frshiftexp`, `PrimFloat.leb`, `PrimFloat.ltb`, `PrimFloat.mul`,
`PrimFloat.normfr_mantissa`, `PrimFloat.opp`, `PrimFloat.sqrt`, `PrimFloat.sub`,
`PrimInt63.eqb`, `PrimInt63.int`, `PrimInt63.land`, `PrimInt63.lsr` (3 theorems):
C21_buffer_ordered_bounded_doubles, C21_order_doubles, C23_never_failed_doubles.

`FloatAxioms.eqb_spec`, `PrimFloat.abs`, `PrimFloat.add`, `PrimFloat.div`, `PrimFloat.eqb`,
`PrimFloat.float`, `PrimFloat.frshiftexp`, `PrimFloat.leb`, `PrimFloat.ltb`,
`PrimFloat.mul`, `PrimFloat.normfr_mantissa`, `PrimFloat.opp`, `PrimFloat.sqrt`,
`PrimFloat.sub`, `PrimInt63.eqb`, `PrimInt63.int`, `PrimInt63.land`, `PrimInt63.lsr`,
`abs_spec`, `add_spec`, `mul_spec` (1 theorem): C102_vanishing.

`FloatAxioms.eqb_spec`, `PrimFloat.abs`, `PrimFloat.add`, `PrimFloat.div`, `PrimFloat.eqb`,
`PrimFloat.float`, `PrimFloat.frshiftexp`, `PrimFloat.leb`, `PrimFloat.ltb`,
`PrimFloat.mul`, `PrimFloat.normfr_mantissa`, `PrimFloat.of_uint63`, `PrimFloat.opp`,
`PrimFloat.sqrt`, `PrimFloat.sub`, `PrimInt63.eqb`, `PrimInt63.int`, `PrimInt63.land`,
`PrimInt63.lor`, `PrimInt63.lsl`, `PrimInt63.lsr`, `PrimInt63.sub`, `abs_spec`, `add_spec`,
`mul_spec` (1 theorem): C102_finite_refuted.

Primitive types and operations (`PrimFloat.*`, `PrimInt63.*`) are listed by Coq as
axioms although the kernel computes with them; `FloatAxioms.*` are the standard
library's statements that they behave as specified.
